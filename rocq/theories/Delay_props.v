(** C82: a DelayNode neither makes nor loses water during a run. *)
From Verif Require Import Base Ring LP_model LP_check Sys_model RouteLP_model RouteLP_spec RouteLP_proofs
  Buffers_model Buffers_proofs Buffers_props Delay_model Delay_proofs.
Open Scope Q_scope.

(** What a timestep gives back is what was taken in [n] timesteps earlier (amounts below 1e-8 count as none). *)
Theorem C82_given_back : forall triv S o i n initial s steps t st, wf_sys S ->
  In i (s_nodes S) -> s_kind S i = KInput -> (1 <= n)%nat -> length (b_mem s) = n ->
  delay_node_run triv S o i n (delay_reset initial s) steps -> nth_error steps t = Some st ->
  let due := if Nat.ltb t n then initial
             else match nth_error steps (t - n) with Some e => flow_at triv S o e | None => 0 end in
  delay_node_flow triv S i st == (if qltb (qabs due) (1 # 100000000) then 0 else due).
Proof.
  intros triv S o i n initial s steps t st W Hi Hk Hn Hl HR Ht. cbv zeta.
  destruct (run_values triv S o i n W Hi Hk steps _ HR t st Ht) as [v [V1 V2]].
  pose proof (proj1 (nth_error_Some steps t) ltac:(rewrite Ht; discriminate)) as Lt.
  rewrite (C37_delayed_flow n initial s (map (flow_at triv S o) steps) t Hn Hl) in V1 by now rewrite map_length.
  injection V1 as <-. unfold delay_node_flow. rewrite V2. unfold round8, eps8.
  destruct (Nat.ltb_spec t n) as [A|A]; [reflexivity|].
  destruct (nth_error steps (t - n)) as [e|] eqn:E; [|apply nth_error_None in E; lia].
  rewrite (nth_error_nth (map (flow_at triv S o) steps) (t - n) 0 (map_nth_error _ _ _ E)). reflexivity.
Qed.
Print Assumptions C82_given_back.

(** Over a run of timesteps of one length: what was given back and what is on its way is what was taken in and the
    initial content, up to 1e-8 a day in each timestep. *)
Theorem C82_water_kept : forall triv S o i n initial s steps days, wf_sys S ->
  In i (s_nodes S) -> s_kind S i = KInput -> (1 <= n)%nat -> length (b_mem s) = n -> 0 <= days ->
  delay_node_run triv S o i n (delay_reset initial s) steps ->
  let given := qsum (map (fun st => delay_node_flow triv S i st * days) steps) in
  let taken := qsum (map (fun st => flow_at triv S o st * days) steps) in
  let on_its_way := qsum (b_mem (delay_node_end triv S o n (delay_reset initial s) steps)) * days in
  let content := inject_Z (Z.of_nat n) * initial * days in
  qabs (given + on_its_way - (content + taken)) <= inject_Z (Z.of_nat (length steps)) * (1 # 100000000) * days.
Proof.
  intros triv S o i n initial s steps days W Hi Hk Hn Hl HD HR. cbv zeta.
  assert (length (b_mem (delay_reset initial s)) = n) as Hl' by (unfold delay_reset; cbn [b_mem]; now rewrite map_length).
  assert (b_pos (delay_reset initial s) < n)%nat as Hp by (cbn; lia).
  destruct (run_conserved triv S o i n W Hi Hk Hn (fun _ => days) days HD ltac:(reflexivity) steps _ Hl' Hp HR) as [A B].
  assert (qsum (b_mem (delay_reset initial s)) == inject_Z (Z.of_nat n) * initial) as E.
  { unfold delay_reset. cbn [b_mem]. rewrite <- Hl. clear. induction (b_mem s) as [|a l IH]; [cbn; ring|].
    cbn [map qsum length]. rewrite IH. replace (Z.of_nat (Datatypes.S (length l))) with (Z.of_nat (length l) + 1)%Z by lia.
    rewrite inject_Z_plus. change (inject_Z 1) with 1. ring. }
  rewrite E in A, B. unfold delay_node_flow, eps8 in *.
  unfold qabs. match goal with |- context [qleb ?a ?b] => destruct (qlebP a b) | |- context [qltb ?a ?b] => destruct (qltbP a b) end; lra.
Qed.
Print Assumptions C82_water_kept.

(** Exactly, if no flow into the node is smaller than 1e-8 without being 0. *)
Theorem C82_water_kept_exactly : forall triv S o i n initial s steps, wf_sys S ->
  In i (s_nodes S) -> s_kind S i = KInput -> (1 <= n)%nat -> length (b_mem s) = n ->
  (initial == 0 \/ 1 # 100000000 <= qabs initial) ->
  (forall st, In st steps -> flow_at triv S o st == 0 \/ 1 # 100000000 <= qabs (flow_at triv S o st)) ->
  delay_node_run triv S o i n (delay_reset initial s) steps ->
  qsum (map (delay_node_flow triv S i) steps) + qsum (b_mem (delay_node_end triv S o n (delay_reset initial s) steps)) ==
  inject_Z (Z.of_nat n) * initial + qsum (map (flow_at triv S o) steps).
Proof.
  intros triv S o i n initial s steps W Hi Hk Hn Hl HI HF HR.
  assert (length (b_mem (delay_reset initial s)) = n) as Hl' by (unfold delay_reset; cbn [b_mem]; now rewrite map_length).
  unfold delay_node_flow. rewrite (run_exact triv S o i n W Hi Hk Hn steps _ Hl'); [| | | |exact HR].
  - apply Qplus_comp; [|reflexivity]. unfold delay_reset. cbn [b_mem]. rewrite <- Hl. clear.
    induction (b_mem s) as [|a l IH]; [cbn; ring|].
    cbn [map qsum length]. rewrite IH. replace (Z.of_nat (Datatypes.S (length l))) with (Z.of_nat (length l) + 1)%Z by lia.
    rewrite inject_Z_plus. change (inject_Z 1) with 1. ring.
  - cbn. lia.
  - apply Forall_forall. intros v Hv. unfold delay_reset in Hv. cbn [b_mem] in Hv. apply in_map_iff in Hv as [? [<- _]]. exact HI.
  - apply Forall_forall. exact HF.
Qed.
Print Assumptions C82_water_kept_exactly.

(** A river 1 -> [2, delay, 3] -> 4, at most 31 a day. *)
Definition ex_delay : sys := {|
  s_nodes := [1; 2; 3; 4]%nat; s_edges := [(1, 2); (3, 4)]%nat; s_name := fun n => n; s_fqn := fun n => n;
  s_domain := fun _ => 0%nat;
  s_kind := fun n => match n with 1 | 3 => KInput | 2 | 4 => KOutput | _ => KOther end%nat;
  s_slot := fun _ => NoSlot; s_inputs := fun _ => []; s_outputs := fun _ => []; s_members := fun _ => [];
  s_vfactors := fun _ => []; s_has_factors := fun _ => false; s_weights := fun _ => None; s_conv := fun _ => 1 |}.
Definition ex_day (days supply due : Q) : data := {|
  d_cost := fun _ => 0; d_min := fun n => match n with 1 => Fin supply | 3 => Fin due | _ => Fin 0 end%nat;
  d_max := fun n => match n with 1 => Fin supply | 3 => Fin due | _ => PInf end%nat;
  d_factors := fun _ => []; d_minvol := fun _ => 0; d_maxvol := fun _ => Fin 0; d_vol := fun _ => 0;
  d_active := fun _ => true; d_days := days |}.
Definition ex_step (days supply due : Q) : step := (ex_day days supply due, fun c => nth c [supply; due] 0).

Lemma ex_delay_wf : wf_sys ex_delay.
Proof.
  constructor.
  - cbn. repeat constructor; cbn; intuition discriminate.
  - cbn. repeat constructor; cbn; intuition discriminate.
  - cbn. intros a b H. repeat (destruct H as [H|H]; [injection H as <- <-; split; cbn; tauto|]). contradiction.
  - intros n st _. cbn. split; [discriminate|contradiction].
  - intros n st _. cbn. split; [discriminate|contradiction].
  - intros n st H. contradiction.
  - intros n st H. contradiction.
  - intros n st [H|H]; discriminate.
  - intros st. constructor.
  - intros st. constructor.
Qed.

(** Three days, two timesteps of delay: 5, 7, 9 go in, 2, 2, 5 come out, 7 and 9 are on their way. *)
Example C82_example :
  let steps := [ex_step 1 5 2; ex_step 1 7 2; ex_step 1 9 5] in
  delay_node_run false ex_delay 2 3 2 (delay_reset 2 (delay_setup 2)) steps /\
  map (delay_node_flow false ex_delay 3) steps = [2; 2; 5] /\
  b_mem (delay_node_end false ex_delay 2 2 (delay_reset 2 (delay_setup 2)) steps) = [9; 7].
Proof.
  cbv zeta. split; [|split; vm_compute; reflexivity].
  cbn [delay_node_run]. repeat split; try reflexivity; apply solved_check_sound; vm_compute; reflexivity.
Qed.

(** Flow rates are delayed, not volumes: with months as timesteps the 31 days of January come out in the 28 days of
    February and water is lost. *)
Theorem C82_months_refuted : exists S o i n initial steps,
  wf_sys S /\ In i (s_nodes S) /\ s_kind S i = KInput /\
  delay_node_run false S o i n (delay_reset initial (delay_setup n)) steps /\
  (forall st, In st steps -> 28 <= d_days (fst st) <= 31) /\
  initial == 0 /\ Forall (fun v => v == 0) (b_mem (delay_node_end false S o n (delay_reset initial (delay_setup n)) steps)) /\
  qsum (map (fun st => flow_at false S o st * d_days (fst st)) steps) == 310 /\
  qsum (map (fun st => delay_node_flow false S i st * d_days (fst st)) steps) == 280.
Proof.
  exists ex_delay, 2%nat, 3%nat, 1%nat, 0, [ex_step 31 10 0; ex_step 28 0 10].
  split; [exact ex_delay_wf|]. split; [cbn; tauto|]. split; [reflexivity|]. split.
  { cbn [delay_node_run]. repeat split; try reflexivity; apply solved_check_sound; vm_compute; reflexivity. }
  split.
  { intros st [<-|[<-|[]]]; cbn; split; vm_compute; discriminate. }
  split; [reflexivity|]. split; [vm_compute; repeat constructor|]. split; vm_compute; reflexivity.
Qed.
Print Assumptions C82_months_refuted.
