(** Life cycle of a run, MultiModel: C61, C65. *)
From Verif Require Import Base Run_model Run_spec Run_proofs.
Local Open Scope nat_scope.
Local Open Scope list_scope.

(** C65: in a run in which nothing raises, every node and every component that takes part is called before and after every solve,
    exactly once; values are calculated between; timesteps follow one another; at the end each is finished exactly once. *)
Theorem C65_order (raises : call -> bool) (T : nat) (m : model) (flat : list nat) :
  NoDup (m_nodes m) -> NoDup (m_visible m) -> NoDup flat -> takes_part m flat -> (forall e, raises e = false) -> 0 < T ->
  let calls := fst (fst (run raises T m)) in
  snd (fst (run raises T m)) = Done /\
  (forall t, t < T -> once calls (Solve t) /\ (forall u, t < u -> u < T -> earlier calls (Solve t) (Solve u)) /\
    (forall n, In n (m_nodes m) ->
       once calls (BeforeNode t n) /\ once calls (AfterNode t n) /\ earlier calls (BeforeNode t n) (Solve t) /\ earlier calls (Solve t) (AfterNode t n)) /\
    (forall c, In c flat ->
       once calls (BeforeComponent t c) /\ once calls (AfterComponent t c) /\ earlier calls (BeforeComponent t c) (Solve t) /\
       earlier calls (Solve t) (AfterComponent t c) /\
       (m_parameter m c = true -> once calls (CalcValues t c) /\ earlier calls (BeforeComponent t c) (CalcValues t c) /\ earlier calls (CalcValues t c) (Solve t)) /\
       (S t < T -> earlier calls (AfterComponent t c) (BeforeComponent (S t) c)))) /\
  (forall n, In n (m_nodes m) -> once calls (FinishNode n)) /\ (forall c, In c flat -> once calls (FinishComponent c)) /\
  finish_last is_finish calls.
Proof.
  intros Nn Nv Nf P R HT. cbv zeta. rewrite (run_calm raises T m flat P) by auto. cbn [fst snd].
  set (A := start_calls m). set (C := finish_calls m flat).
  assert (NoDup (A ++ flat_map (step_calls m flat) (seq 0 T) ++ C)) as N.
  { apply (NoDup_within 0 7 15).
    - unfold A, start_calls. unfold takes_part in P. destruct (m_dirty m || m_tdirty m); [eapply NoDup_setup; eauto|rewrite P; apply NoDup_reset; auto].
    - apply (NoDup_within 7 13 15); [apply NoDup_steps; auto|apply NoDup_finish; auto|apply within_steps|apply within_finish].
    - apply within_start.
    - apply within_app; [eapply within_wider; [apply within_steps|lia|lia]|eapply within_wider; [apply within_finish|lia|lia]]. }
  split; [replace (T =? 0) with false by (symmetry; apply Nat.eqb_neq; lia); reflexivity|]. split; [|split; [|split]].
  - intros t Ht.
    assert (forall e, In e (step_calls m flat t) -> In e (A ++ flat_map (step_calls m flat) (seq 0 T) ++ C)) as IN.
    { intros e H. rewrite !in_app_iff. right. left. apply in_flat_map. exists t. split; [apply in_seq; lia|exact H]. }
    assert (forall e, In e (step_calls m flat t) -> once (A ++ flat_map (step_calls m flat) (seq 0 T) ++ C) e) as ON by (intros e H; apply once_intro; auto).
    assert (forall l1 l2 a b, step_calls m flat t = l1 ++ l2 -> In a l1 -> In b l2 -> earlier (A ++ flat_map (step_calls m flat) (seq 0 T) ++ C) a b) as EA.
    { intros l1 l2 a b E Ha Hb. rewrite (steps_split m flat T t Ht), E.
      apply (earlier_intro _ (A ++ flat_map (step_calls m flat) (seq 0 t) ++ l1) (l2 ++ flat_map (step_calls m flat) (seq (S t) (T - S t)) ++ C));
        [rewrite <- !app_assoc; reflexivity|rewrite !in_app_iff; auto|rewrite !in_app_iff; auto]. }
    assert (forall u a b, t < u -> u < T -> In a (step_calls m flat t) -> In b (step_calls m flat u) -> earlier (A ++ flat_map (step_calls m flat) (seq 0 T) ++ C) a b) as LA.
    { intros u a b H1 H2 Ha Hb. rewrite (steps_split m flat T t Ht).
      apply (earlier_intro _ (A ++ flat_map (step_calls m flat) (seq 0 t) ++ step_calls m flat t) (flat_map (step_calls m flat) (seq (S t) (T - S t)) ++ C));
        [rewrite <- !app_assoc; reflexivity|rewrite !in_app_iff; auto|]. rewrite in_app_iff. left. apply in_flat_map. exists u. split; [apply in_seq; lia|exact Hb]. }
    assert (forall t, In (Solve t) (step_calls m flat t)) as SV by (intros u; unfold step_calls; rewrite !in_app_iff; cbn; tauto).
    assert (step_calls m flat t = (map (BeforeNode t) (m_nodes m) ++ map (BeforeComponent t) flat ++ map (CalcValues t) (filter (m_parameter m) flat)) ++
        ([Solve t] ++ map (AfterNode t) (m_nodes m) ++ map (AfterComponent t) flat)) as E1 by (unfold step_calls; rewrite <- !app_assoc; reflexivity).
    assert (step_calls m flat t = (map (BeforeNode t) (m_nodes m) ++ map (BeforeComponent t) flat ++ map (CalcValues t) (filter (m_parameter m) flat) ++ [Solve t]) ++
        (map (AfterNode t) (m_nodes m) ++ map (AfterComponent t) flat)) as E2 by (unfold step_calls; rewrite <- !app_assoc; reflexivity).
    assert (step_calls m flat t = (map (BeforeNode t) (m_nodes m) ++ map (BeforeComponent t) flat) ++
        (map (CalcValues t) (filter (m_parameter m) flat) ++ [Solve t] ++ map (AfterNode t) (m_nodes m) ++ map (AfterComponent t) flat)) as E3
      by (unfold step_calls; rewrite <- !app_assoc; reflexivity).
    split; [apply ON, SV|]. split; [intros u H1 H2; apply (LA u); auto|]. split.
    + intros n Hn.
      assert (In (BeforeNode t n) (map (BeforeNode t) (m_nodes m))) as B1 by (apply in_map, Hn).
      assert (In (AfterNode t n) (map (AfterNode t) (m_nodes m))) as B2 by (apply in_map, Hn).
      repeat split.
      * apply ON. rewrite E1, !in_app_iff. auto.
      * apply ON. rewrite E2, !in_app_iff. auto.
      * apply (EA _ _ _ _ E1); rewrite !in_app_iff; cbn; auto.
      * apply (EA _ _ _ _ E2); rewrite !in_app_iff; cbn; auto 10.
    + intros c Hc.
      assert (In (BeforeComponent t c) (map (BeforeComponent t) flat)) as B1 by (apply in_map, Hc).
      assert (In (AfterComponent t c) (map (AfterComponent t) flat)) as B2 by (apply in_map, Hc).
      split; [apply ON; rewrite E1, !in_app_iff; auto|]. split; [apply ON; rewrite E2, !in_app_iff; auto|].
      split; [apply (EA _ _ _ _ E1); rewrite !in_app_iff; cbn; auto|]. split; [apply (EA _ _ _ _ E2); rewrite !in_app_iff; cbn; auto 10|]. split.
      * intros Pc. assert (In (CalcValues t c) (map (CalcValues t) (filter (m_parameter m) flat))) as B3 by (apply in_map, filter_In; auto).
        split; [apply ON; rewrite E1, !in_app_iff; auto|]. split; [apply (EA _ _ _ _ E3); rewrite !in_app_iff; auto|apply (EA _ _ _ _ E1); rewrite !in_app_iff; cbn; auto].
      * intros H. apply (LA (S t)); [lia|exact H|rewrite E2, !in_app_iff; auto|]. unfold step_calls. rewrite !in_app_iff. right. left. apply in_map, Hc.
  - intros n Hn. apply once_intro; [exact N|]. rewrite !in_app_iff. right. right. unfold C, finish_calls. rewrite in_app_iff. left. apply in_map, Hn.
  - intros c Hc. apply once_intro; [exact N|]. rewrite !in_app_iff. right. right. unfold C, finish_calls. rewrite in_app_iff. right. apply in_map, Hc.
  - exists (A ++ flat_map (step_calls m flat) (seq 0 T)), C. split; [now rewrite app_assoc|]. split; apply forallb_forall; intros e H.
    + assert (within 0 13 (A ++ flat_map (step_calls m flat) (seq 0 T))) as W.
      { apply within_app; [eapply within_wider; [apply within_start|lia|lia]|eapply within_wider; [apply within_steps|lia|lia]]. }
      specialize (W e H). destruct e; cbn in *; auto; lia.
    + apply within_finish in H. destruct e; cbn in *; auto; lia.
Qed.
Print Assumptions C65_order.

(** C65 with exceptions: wherever one is raised (not in a finish hook), the calls made are a first part of those of an undisturbed run followed by
    finishing every node and component exactly once, and the run reports the exception. *)
Theorem C65_exception (raises : call -> bool) (T : nat) (m : model) :
  let flat := m_flat (snd (run raises T m)) in
  NoDup (m_nodes m) -> NoDup flat -> (forall e, is_finish e = true -> raises e = false) ->
  exists p rest,
    fst (fst (run raises T m)) = p ++ finish_calls m flat /\ start_calls m ++ flat_map (step_calls m flat) (seq 0 T) = p ++ rest /\
    (snd (fst (run raises T m)) = Raised <-> rest <> [] \/ exists e, In e p /\ raising raises e = true) /\
    (forall n, In n (m_nodes m) -> once (fst (fst (run raises T m))) (FinishNode n)) /\ (forall c, In c flat -> once (fst (fst (run raises T m))) (FinishComponent c)) /\
    finish_last is_finish (fst (fst (run raises T m))).
Proof.
  intros flat Nn Nf R. destruct (run_any raises T m flat eq_refl) as (p & rest & E1 & E2 & E3).
  { intros e H. apply R. apply within_finish in H. destruct e; cbn in *; auto; lia. }
  assert (within 0 13 p) as W.
  { eapply within_prefix; [|exact E2]. apply within_app; [eapply within_wider; [apply within_start|lia|lia]|eapply within_wider; [apply within_steps|lia|lia]]. }
  assert (forall e, In e (finish_calls m flat) -> once (p ++ finish_calls m flat) e) as ON.
  { intros e H. pose proof (once_intro (finish_calls m flat) e (NoDup_finish m flat Nn Nf) H) as (l1 & l2 & E & A & B).
    exists (p ++ l1), l2. rewrite E, <- app_assoc. split; [reflexivity|]. split; [|exact B]. rewrite in_app_iff. intros [X|X]; [|auto].
    apply W in X. apply within_finish in H. lia. }
  exists p, rest. split; [exact E1|]. split; [exact E2|]. split; [|rewrite E1; split; [|split]].
  - split.
    + intros X. destruct rest; [|left; discriminate]. right.
      destruct (existsb (raising raises) p) eqn:Ex; [apply existsb_exists in Ex as (e & H1 & H2); eauto|].
      exfalso. apply E3; [|exact X]. split; [reflexivity|]. intros e H. destruct (raising raises e) eqn:Re; [|reflexivity].
      assert (existsb (raising raises) p = true) by (apply existsb_exists; eauto). congruence.
    + intros X. destruct (snd (fst (run raises T m))) eqn:Er; [| reflexivity|]; exfalso; destruct E3 as [E3 _]; destruct E3 as [K1 K2]; try discriminate;
        (destruct X as [X|(e & X1 & X2)]; [contradiction|rewrite (K2 e X1) in X2; discriminate]).
  - intros n Hn. apply ON. unfold finish_calls. apply in_app_iff. left. apply in_map, Hn.
  - intros c Hc. apply ON. unfold finish_calls. apply in_app_iff. right. apply in_map, Hc.
  - exists p, (finish_calls m flat). split; [reflexivity|]. split; apply forallb_forall; intros e H.
    + specialize (W e H). destruct e; cbn in *; auto; lia.
    + apply within_finish in H. destruct e; cbn in *; auto; lia.
Qed.
Print Assumptions C65_exception.

(** A run without timesteps is refused after everything has been finished. *)
Theorem C65_nothing_to_run (raises : call -> bool) (m : model) (flat : list nat) :
  takes_part m flat -> (forall e, raises e = false) -> snd (fst (run raises 0 m)) = NothingToRun.
Proof. intros P R. rewrite (run_calm raises 0 m flat P) by auto. reflexivity. Qed.
Print Assumptions C65_nothing_to_run.

(** If setting up is interrupted, the next run sets up again - if the model was marked dirty itself. *)
Theorem C65_setup_again_partial (raises : call -> bool) (T : nat) (m : model) :
  m_dirty m = true -> snd (attempt (raising raises) (setup_calls m)) = false -> start_calls (snd (run raises T m)) = setup_calls (snd (run raises T m)).
Proof.
  intros D A. unfold run. cbv zeta. unfold start_calls. rewrite D. cbn [orb]. rewrite A. reflexivity.
Qed.
Print Assumptions C65_setup_again_partial.

Definition example_model : model := Model [0; 1; 2] [0; 2] (Some [7; 5]) [] true true (fun c => c =? 5).
Example run_example :
  let r := run (fun _ => false) 2 example_model in
  snd (fst r) = Done /\ List.length (fst (fst r)) = 40 /\ m_flat (snd r) = [7; 5] /\
  snd (fst (run (fun e => match e with Solve 1 => true | _ => false end) 2 example_model)) = Raised /\
  skipn 27 (fst (fst (run (fun e => match e with Solve 1 => true | _ => false end) 2 example_model))) =
    [BeforeComponent 1 5; CalcValues 1 5; Solve 1; FinishNode 0; FinishNode 1; FinishNode 2; FinishComponent 7; FinishComponent 5].
Proof. vm_compute. repeat split. Qed.

(** A component made after the first run takes no part in the second: it is not set up, called or finished. *)
Theorem C65_late_component_refuted : exists (m : model) (c : nat),
  let m' := add_component c true (snd (run (fun _ => false) 1 m)) in
  option_map (existsb (Nat.eqb c)) (m_tree m') = Some true /\ snd (fst (run (fun _ => false) 1 m')) = Done /\
  forall t, ~ In (SetupComponent c) (fst (fst (run (fun _ => false) 1 m'))) /\ ~ In (AfterComponent t c) (fst (fst (run (fun _ => false) 1 m'))) /\
    ~ In (FinishComponent c) (fst (fst (run (fun _ => false) 1 m'))).
Proof.
  exists example_model, 9. cbv zeta. split; [reflexivity|]. split; [reflexivity|]. intros t. vm_compute.
  repeat split; intros H; repeat (destruct H as [H|H]; [discriminate H|]); exact H.
Qed.
Print Assumptions C65_late_component_refuted.

(** An exception in a finish hook leaves the others unfinished. *)
Theorem C65_finish_refuted : exists (m : model) (c : nat) (raises : call -> bool),
  (forall e, raises e = true -> is_finish e = true) /\ In c (m_flat (snd (run raises 1 m))) /\ ~ In (FinishComponent c) (fst (fst (run raises 1 m))).
Proof.
  exists example_model, 5, (fun e => match e with FinishComponent 7 => true | _ => false end). split; [|split].
  - intros e H. destruct e; try discriminate. reflexivity.
  - vm_compute. auto.
  - vm_compute. intros H. repeat (destruct H as [H|H]; [discriminate H|]); exact H.
Qed.
Print Assumptions C65_finish_refuted.

(** After a change of the dates alone, a setup that is interrupted is not repeated: the next run does without. *)
Theorem C65_setup_again_refuted : exists (m : model) (raises : call -> bool),
  let m1 := change_time (snd (run (fun _ => false) 1 m)) in
  let m2 := snd (run raises 1 m1) in
  snd (fst (run raises 1 m1)) = Raised /\ snd (fst (run (fun _ => false) 1 m2)) = Done /\ ~ In (SetupComponent 5) (fst (fst (run raises 1 m1))) /\
  ~ In (SetupComponent 5) (fst (fst (run (fun _ => false) 1 m2))).
Proof.
  exists example_model, (fun e => match e with SetupComponent 7 => true | _ => false end). vm_compute. split; [reflexivity|]. split; [reflexivity|].
  split; intros H; repeat (destruct H as [H|H]; [discriminate H|]); exact H.
Qed.
Print Assumptions C65_setup_again_refuted.

(** ** MultiModel *)

(** C61: the sub-models take the same timesteps in lock-step: there is a number of timesteps [n] at which all have the same date, all sub-models
    are stepped in their order at each of these and at no other, and the run goes on until a sub-model has no more timesteps, or stops with an
    exception at the first timestep in which the dates differ. *)
Theorem C61_lock_step (raises : multi_call -> bool) (ms : list submodel) :
  ms <> [] -> (forall e, raises e = false) -> scenarios_consistent ms = true ->
  exists n, (forall i, i < n -> agree (map s_dates ms) i) /\
    let start := if existsb s_dirty ms then map MSetup (seq 0 (List.length ms)) ++ [MScenarios] else map MReset (seq 0 (List.length ms)) in
    let steps := flat_map (fun t => flat_map (fun k => [MBefore k t; MSolve k t; MAfter k t]) (seq 0 (List.length ms))) (seq 0 n) in
    (multi_run raises ms = (start ++ steps ++ map MFinish (seq 0 (List.length ms)), true) /\ ~ present (map s_dates ms) n \/
     multi_run raises ms = (start ++ steps ++ [MSync n] ++ map MFinish (seq 0 (List.length ms)), false) /\ present (map s_dates ms) n /\ ~ agree (map s_dates ms) n).
Proof.
  intros NE R SC. destruct (rounds_spec (List.length ms) (match ms with [] => 0 | m :: _ => List.length (s_dates m) end) (map s_dates ms) 0) as (n & A & B).
  - destruct ms; [congruence|discriminate].
  - intros l ls' E. destruct ms as [|m ms]; [discriminate|]. cbn in E. injection E as <- _. lia.
  - exists n. split; [exact A|]. cbv zeta. unfold multi_run. cbv zeta.
    rewrite (attempt_none _ (if existsb s_dirty ms then _ else _)).
    2:{ intros e H. destruct (existsb s_dirty ms); [apply in_app_iff in H as [H|[<-|[]]]; [apply in_map_iff in H as (x & <- & _); cbn; auto|cbn; rewrite SC; reflexivity]|].
        apply in_map_iff in H as (x & <- & _). cbn. auto. }
    rewrite (attempt_none _ (map MFinish _)) by (intros e H; apply in_map_iff in H as (x & <- & _); cbn; auto).
    cbn [fst snd andb]. 
    assert (forall n, attempt (multi_raising ms raises) (flat_map (multi_step (List.length ms)) (seq 0 n)) = (flat_map (multi_step (List.length ms)) (seq 0 n), true)) as C.
    { intros k. apply attempt_none. intros e H. apply in_flat_map in H as (t & _ & H). apply in_flat_map in H as (x & _ & H). cbn in H.
      destruct H as [<-|[<-|[<-|[]]]]; cbn; auto. }
    destruct B as [[-> P]|(-> & P & Q)]; [left|right].
    + rewrite C. split; [reflexivity|exact P].
    + rewrite attempt_app, C. cbn [attempt multi_raising fst snd andb]. split; [|split; assumption]. rewrite <- app_assoc. reflexivity.
Qed.
Print Assumptions C61_lock_step.

(** Whatever raises (except in finishing), every sub-model is finished, once, at the end. *)
Theorem C61_all_finished (raises : multi_call -> bool) (ms : list submodel) :
  (forall e, is_multi_finish e = true -> raises e = false) ->
  (forall k, k < List.length ms -> once (fst (multi_run raises ms)) (MFinish k)) /\ finish_last is_multi_finish (fst (multi_run raises ms)).
Proof.
  intros R. unfold multi_run. cbv zeta. rewrite (attempt_none _ (map MFinish _)) by (intros e H; apply in_map_iff in H as (x & <- & _); apply R; reflexivity).
  set (start := attempt _ (if existsb s_dirty ms then _ else _)). set (steps := if snd start then _ else _).
  cbn [fst].
  assert (forall e, In e (fst start) -> is_multi_finish e = false) as A.
  { intros e H. subst start. match goal with H : In e (fst (attempt ?r ?l)) |- _ => destruct (attempt_prefix r l) as [rest E]; assert (In e l) as X by (rewrite E; apply in_app_iff; auto) end.
    destruct (existsb s_dirty ms); [apply in_app_iff in X as [X|[<-|[]]]; [|reflexivity]|]; apply in_map_iff in X as (k & <- & _); reflexivity. }
  assert (forall fuel K t ls e, In e (rounds fuel K t ls) -> is_multi_finish e = false) as B0.
  { induction fuel as [|fuel IH]; intros K t ls e; [intros []|]. cbn [rounds]. destruct (heads ls) as [[[|x xs] rest]|]; [intros []| |intros []].
    destruct (forallb _ _); [|intros [<-|[]]; reflexivity]. intros H. apply in_app_iff in H as [H|H]; [|eapply IH; eauto].
    apply in_flat_map in H as (k & _ & H). cbn in H. destruct H as [<-|[<-|[<-|[]]]]; reflexivity. }
  assert (forall e, In e (fst steps) -> is_multi_finish e = false) as B.
  { intros e H. subst steps. destruct (snd start); [|destruct H].
    match goal with H : In e (fst (attempt ?r ?l)) |- _ => destruct (attempt_prefix r l) as [rest E]; assert (In e l) as X by (rewrite E; apply in_app_iff; auto) end.
    eapply B0, X. }
  split.
  - intros k Hk. pose proof (once_intro (map MFinish (seq 0 (List.length ms))) (MFinish k)) as (l1 & l2 & E & C & D).
    + apply NoDup_map'; [intros x y X; injection X; auto|apply seq_NoDup].
    + apply in_map, in_seq. lia.
    + exists (fst start ++ fst steps ++ l1), l2. rewrite E, <- !app_assoc. split; [reflexivity|]. split; [|exact D]. rewrite !in_app_iff.
      intros [X|[X|X]]; [apply A in X; discriminate|apply B in X; discriminate|auto].
  - exists (fst start ++ fst steps), (map MFinish (seq 0 (List.length ms))). split; [now rewrite app_assoc|]. split; apply forallb_forall; intros e H.
    + apply in_app_iff in H as [H|H]; [rewrite (A e H)|rewrite (B e H)]; reflexivity.
    + apply in_map_iff in H as (k & <- & _). reflexivity.
Qed.
Print Assumptions C61_all_finished.

(** No timestep is taken when the sub-models were set up with different scenarios. *)
Theorem C61_scenarios (raises : multi_call -> bool) (ms : list submodel) (a b : submodel) :
  In a ms -> In b ms -> existsb s_dirty ms = true -> (s_sizes a <> s_sizes b \/ s_combinations a <> s_combinations b) ->
  snd (multi_run raises ms) = false /\ forall k t, ~ In (MBefore k t) (fst (multi_run raises ms)) /\ ~ In (MSolve k t) (fst (multi_run raises ms)).
Proof.
  intros Ha Hb D N.
  assert (scenarios_consistent ms = false) as SC.
  { destruct (scenarios_consistent ms) eqn:E; [|reflexivity]. exfalso. unfold scenarios_consistent in E. destruct ms as [|m0 ms]; [destruct Ha|].
    apply andb_prop in E as [E1 E2]. rewrite forallb_forall in E1, E2.
    pose proof (fun m H => proj1 (eqb_list_spec Nat.eqb Nat.eqb_eq _ _) (E1 m H)) as F1.
    pose proof (fun m H => proj1 (eqb_list_spec _ (eqb_list_spec Nat.eqb Nat.eqb_eq) _ _) (E2 m H)) as F2.
    destruct N as [N|N]; apply N; [rewrite (F1 a Ha), (F1 b Hb)|rewrite (F2 a Ha), (F2 b Hb)]; reflexivity. }
  unfold multi_run. cbv zeta. rewrite D.
  assert (snd (attempt (multi_raising ms raises) (map MSetup (seq 0 (List.length ms)) ++ [MScenarios])) = false) as F.
  { rewrite attempt_app. destruct (snd (attempt (multi_raising ms raises) (map MSetup (seq 0 (List.length ms))))) eqn:E; [|exact E].
    cbn [attempt multi_raising]. rewrite SC. reflexivity. }
  rewrite F. cbn [fst snd andb app]. split; [reflexivity|].
  assert (forall r K e, In e (fst (attempt r (map MFinish (seq 0 K)))) -> exists j, e = MFinish j) as G.
  { intros r K e H. destruct (attempt_prefix r (map MFinish (seq 0 K))) as [rest E]. assert (In e (map MFinish (seq 0 K))) as X by (rewrite E; apply in_app_iff; auto).
    apply in_map_iff in X as (j & <- & _). eauto. }
  assert (forall e, In e (fst (attempt (multi_raising ms raises) (map MSetup (seq 0 (List.length ms)) ++ [MScenarios]))) -> (exists j, e = MSetup j) \/ e = MScenarios) as G2.
  { intros e H. destruct (attempt_prefix (multi_raising ms raises) (map MSetup (seq 0 (List.length ms)) ++ [MScenarios])) as [rest E].
    assert (In e (map MSetup (seq 0 (List.length ms)) ++ [MScenarios])) as X by (rewrite E; apply in_app_iff; auto).
    apply in_app_iff in X as [X|[<-|[]]]; [apply in_map_iff in X as (j & <- & _); eauto|auto]. }
  intros k t. split; intros H; apply in_app_iff in H as [H|H]; (apply G in H as [j X]; discriminate) || (apply G2 in H as [[j X]|X]; discriminate).
Qed.
Print Assumptions C61_scenarios.

Example multi_example :
  let a := Submodel [0; 1; 2]%Z true [2] [[0]; [1]] in let b := Submodel [0; 1]%Z false [2] [[0]; [1]] in
  multi_run (fun _ => false) [a; b] =
    ([MSetup 0; MSetup 1; MScenarios; MBefore 0 0; MSolve 0 0; MAfter 0 0; MBefore 1 0; MSolve 1 0; MAfter 1 0;
      MBefore 0 1; MSolve 0 1; MAfter 0 1; MBefore 1 1; MSolve 1 1; MAfter 1 1; MFinish 0; MFinish 1], true) /\
  snd (multi_run (fun _ => false) [a; Submodel [0; 7]%Z false [2] [[0]; [1]]]) = false.
Proof. vm_compute. split; reflexivity. Qed.

(** A sub-model with more timesteps than another is cut short without an exception. *)
Theorem C61_cut_short_refuted : exists ms m d i,
  In m ms /\ nth_error (s_dates m) i = Some d /\ snd (multi_run (fun _ => false) ms) = true /\ forall k, ~ In (MSolve k i) (fst (multi_run (fun _ => false) ms)).
Proof.
  exists [Submodel [0; 1; 2]%Z true [] []; Submodel [0; 1]%Z true [] []], (Submodel [0; 1; 2]%Z true [] []), 2%Z, 2.
  split; [now left|]. split; [reflexivity|]. split; [reflexivity|]. intros k. vm_compute. intros H. repeat (destruct H as [H|H]; [discriminate H|]); exact H.
Qed.
Print Assumptions C61_cut_short_refuted.
