(** Storages: C14, C15, C34, C35, C36. *)
From Verif Require Import Base Paths Sorting Routes_model LP_model LP_check Sys_model RouteLP_model RouteLP_spec
  RouteLP_proofs RouteLP_flow RouteLP_props Storage_model Sim_model Storage_spec Storage_proofs.
Open Scope Q_scope.

(** C14.  The volume stays within constant bounds, exactly, for every number of timesteps.  The solver may
    violate its rows by [tol] as long as [tol * days] is below the 1e-6 the code snaps. *)
Theorem C14_volume_stays_in_bounds : forall tol triv S st mn m,
  wf_sys S -> In st (s_nodes S) -> s_kind S st = KStorage -> 0 <= tol ->
  forall v l v', volume_run tol triv S st v l v' ->
  (forall d x, In (d, x) l -> d_minvol d st = mn /\ d_maxvol d st = Fin m /\ tol * d_days d < eps6) ->
  mn <= v <= m -> mn <= v' <= m.
Proof. exact volume_run_in. Qed.
Print Assumptions C14_volume_stays_in_bounds.

Theorem C14_unlimited_maximum : forall tol triv S st mn,
  wf_sys S -> In st (s_nodes S) -> s_kind S st = KStorage -> 0 <= tol ->
  forall v l v', volume_run tol triv S st v l v' ->
  (forall d x, In (d, x) l -> d_minvol d st = mn /\ d_maxvol d st = PInf /\ tol * d_days d < eps6) ->
  mn <= v -> mn <= v'.
Proof. exact volume_run_above. Qed.
Print Assumptions C14_unlimited_maximum.

(** Bounds that change with time: a timestep never takes the volume further outside. *)
Theorem C14_moving_bounds : forall triv S d x st m,
  wf_sys S -> In st (s_nodes S) -> s_kind S st = KStorage ->
  solved triv S d x -> 0 < d_days d -> d_maxvol d st = Fin m -> d_minvol d st <= m ->
  qmin (d_vol d st) (d_minvol d st) <= vol_after S d (committed triv S x) st <= qmax (d_vol d st) m.
Proof. exact volume_step_moving. Qed.
Print Assumptions C14_moving_bounds.

(** C15.  A run: the volume is the first volume plus all flow * days, up to the snapping of each timestep. *)
Theorem C15_run_accounting : forall tol triv S st mx mn v l v',
  s_kind S st = KStorage -> volume_run tol triv S st v l v' ->
  (forall d x, In (d, x) l -> d_minvol d st = mn /\ d_maxvol d st = mx) ->
  (forall m, mx = Fin m -> eps6 <= m - mn) ->
  let total := gained (map (fun dx => (committed triv S (snd dx) st, d_days (fst dx))) l) in
  let k := inject_Z (Z.of_nat (length l)) in
  - eps6 * k <= v' - (v + total) <= eps6 * k.
Proof.
  intros tol triv S st mx mn v l v' Hk R Hc Hw. cbn zeta. rewrite (run_along _ _ _ _ mx mn Hk _ _ _ R Hc).
  rewrite <- (map_length (fun dx => (committed triv S (snd dx) st, d_days (fst dx))) l). now apply accounting1.
Qed.
Print Assumptions C15_run_accounting.

(** Bounds closer together than 1e-6 can be snapped to twice. *)
Theorem C15_any_bounds : forall mx mn v h,
  - (2 * eps6) * inject_Z (Z.of_nat (length h)) <= volume_along mx mn v h - (v + gained h)
    <= 2 * eps6 * inject_Z (Z.of_nat (length h)).
Proof. intros. apply accounting. Qed.
Print Assumptions C15_any_bounds.

(** Outside the snapping zones nothing is lost. *)
Theorem C15_exact_step : forall vol flow days mx mn,
  eps6 <= qabs (vol + flow * days - mn) -> (forall m, mx = Fin m -> eps6 <= qabs (vol + flow * days - m)) ->
  volume_after vol flow days mx mn None == vol + flow * days.
Proof. intros. unfold volume_after. now apply snap_off. Qed.
Print Assumptions C15_exact_step.

(** C34. *)
Theorem C34_current_pc_is_a_proportion : forall vol flow days mx mn adj,
  let pc := get_current_pc (pc_after vol flow days mx mn adj) in
  let v := volume_after vol flow days mx mn adj in
  0 <= pc <= 1 /\
  match mx with
  | Fin m => (m == 0 -> pc == 1) /\ (~ m == 0 -> 0 <= v / m <= 1 -> pc * m == v)
  | _ => pc == 0
  end.
Proof.
  intros. split; [apply current_pc_range|]. unfold pc, pc_after, ratio. fold v. destruct mx as [|m|]; try reflexivity.
  split.
  - intros H. destruct (qeqbP m 0) as [E|E]; [reflexivity|contradiction].
  - intros H Hr. destruct (qeqbP m 0) as [E|E]; [contradiction|]. rewrite (current_pc_value _ _ eq_refl Hr). field. exact H.
Qed.
Print Assumptions C34_current_pc_is_a_proportion.

Theorem C34_always_between_0_and_1 : forall pc, 0 <= get_current_pc pc <= 1.
Proof. exact current_pc_range. Qed.
Print Assumptions C34_always_between_0_and_1.

(** C35. *)
Theorem C35_constant_max_volume : forall i now m,
  i_max i = MaxNumber m \/ i_max i = MaxConstant m ->
  match i_pc i, i_volume i with
  | Some p, _ => exists v, reset_storage_only i now true = Some (v, Some p) /\ v == p * m
  | None, Some v => exists pc, reset_storage_only i now true = Some (v, pc) /\
      (m == 0 -> pc = None) /\ (~ m == 0 -> exists p, pc = Some p /\ v == p * m)
  | None, None => reset_storage_only i now true = None
  end.
Proof.
  intros i now m H. unfold reset_storage_only, get_initial_volume, get_initial_pc.
  destruct H as [-> | ->]; destruct (i_pc i) as [p|], (i_volume i) as [v|]; try reflexivity;
    try (exists (p * m); split; reflexivity);
    (eexists; split; [reflexivity|]; unfold ratio; split;
     [intros Hm; destruct (qeqbP m 0); [reflexivity|contradiction]
     |intros Hm; destruct (qeqbP m 0); [contradiction|]; exists (v / m); split; [reflexivity|field; exact Hm]]).
Qed.
Print Assumptions C35_constant_max_volume.

Theorem C35_variable_max_volume : forall i now,
  i_max i = MaxParameter ->
  match i_pc i, i_volume i with
  | Some p, Some v => reset_storage_only i now true = Some (v, Some p)
  | _, _ => reset_storage_only i now true = None
  end.
Proof.
  intros i now H. unfold reset_storage_only, get_initial_volume, get_initial_pc. rewrite H.
  destruct (i_pc i), (i_volume i); reflexivity.
Qed.
Print Assumptions C35_variable_max_volume.

(** Resetting to the maximum instead. *)
Theorem C35_reset_to_maximum : forall i now,
  let m := match i_max i with MaxNumber q => q | _ => now end in
  exists pc, reset_storage_only i now false = Some (m, pc) /\ get_current_pc pc == 1.
Proof.
  intros i now. cbn zeta. eexists. split; [reflexivity|]. unfold ratio. destruct (qeqbP (match i_max i with MaxNumber q => q | _ => now end) 0) as [E|E]; [reflexivity|].
  unfold get_current_pc. assert (forall q, ~ q == 0 -> q / q == 1) as H by (intros; field; assumption).
  rewrite <- (H _ E) at 3. revert E. generalize (match i_max i with MaxNumber q => q | _ => now end) as q. intros q E.
  pose proof (H q E) as Hq. qif; [lra|]. qif; [lra|]. reflexivity.
Qed.
Print Assumptions C35_reset_to_maximum.

(** With a varying maximum the volume and the proportion the user gave need not agree: the two are
    independent inputs. *)
Theorem C35_variable_max_consistency_refuted : exists i now v p,
  reset_storage_only i now true = Some (v, Some p) /\ ~ v == p * now.
Proof.
  exists {| i_volume := Some 10; i_pc := Some (1 # 2); i_max := MaxParameter |}, 100, 10, (1 # 2).
  split; [reflexivity|vm_compute; discriminate].
Qed.
Print Assumptions C35_variable_max_consistency_refuted.

(** C36.  The flow is the sum of the flows of the members; so is the first volume. *)
Theorem C36_flow_is_the_sum : forall ms, agg_storage_flow ms == qsum (map m_flow ms).
Proof. exact agg_flow_sum. Qed.
Print Assumptions C36_flow_is_the_sum.

Theorem C36_first_volume_is_the_sum : forall is v, agg_storage_reset is = Some v ->
  exists vs, map get_initial_volume is = map Some vs /\ v == qsum vs.
Proof. exact agg_reset_sum. Qed.
Print Assumptions C36_first_volume_is_the_sum.

(** Volumes of plain storages: exact while nothing snaps to a bound, otherwise the difference grows by at
    most 2e-6 for each member and each timestep. *)
Theorem C36_volume_is_the_sum_partial : forall bs v vs h, unsnapped bs v vs h -> v == qsum vs ->
  aggregated_along bs v h == qsum (members_along bs vs h).
Proof. intros bs v vs h. apply aggregated_exact. Qed.
Print Assumptions C36_volume_is_the_sum_partial.

Theorem C36_drift_is_bounded_partial : forall bs h v vs, length vs = length bs ->
  (forall fs days, In (fs, days) h -> length fs = length bs) -> v == qsum vs ->
  let k := inject_Z (Z.of_nat (length h)) * (inject_Z (Z.of_nat (length bs)) + 1) in
  - (2 * eps6) * k <= aggregated_along bs v h - qsum (members_along bs vs h) <= 2 * eps6 * k.
Proof. intros bs h v vs H1 H2 E. cbn zeta. pose proof (aggregated_drift bs h v vs H1 H2) as H. cbn zeta in H. lra. Qed.
Print Assumptions C36_drift_is_bounded_partial.

(** A member that snaps makes the volumes differ. *)
Theorem C36_snapping_refuted : exists bs v vs h,
  (forall fs days, In (fs, days) h -> length fs = length bs) /\ length vs = length bs /\ v == qsum vs /\
  ~ aggregated_along bs v h == qsum (members_along bs vs h).
Proof.
  exists [(Fin 10, 0); (Fin 100, 0)], 60, [10; 50], [([- (1 # 2000000); 0], 1)].
  split; [intros fs days [H|[]]; injection H as <- <-; reflexivity|]. split; [reflexivity|]. split; [reflexivity|].
  vm_compute. discriminate.
Qed.
Print Assumptions C36_snapping_refuted.

(** A member that is reset (AnnualVirtualStorage.before) gains volume without flow: here from 0 to 100. *)
Theorem C36_member_reset_refuted : exists i (mx : Q) vol member_vol pc,
  vol == member_vol /\ reset_storage_only i mx false = Some (100, pc) /\
  let flow := 0 in
  let m := {| m_flow := flow; m_max := Fin mx; m_min := 0 |} in
  ~ agg_storage_after vol [m] 1 == volume_after 100 flow 1 (Fin mx) 0 None.
Proof.
  exists {| i_volume := None; i_pc := Some 1; i_max := MaxNumber 100 |}, 100, 0, 0, (Some (100 / 100)).
  split; [reflexivity|]. split; [reflexivity|]. vm_compute. discriminate.
Qed.
Print Assumptions C36_member_reset_refuted.

(** ** Examples *)
(** Three timesteps of the example network; the reservoir (3) starts at 40 in [10, 60]. *)
Definition at_vol (d : data) (v : Q) (days : Q) : data := {|
  d_cost := d_cost d; d_min := d_min d; d_max := d_max d; d_factors := d_factors d; d_minvol := d_minvol d;
  d_maxvol := d_maxvol d; d_vol := fun n => if Nat.eqb n 3 then v else d_vol d n; d_active := d_active d; d_days := days |}.

Definition ex_y : nat -> Q := fun c => nth c [1; 0; 0; 0; 12; 24] 0.

Lemma solved_solved_within tol triv S d x : 0 <= tol -> solved triv S d x -> solved_within tol triv S d x.
Proof.
  intros Ht [P [HP [_ HF]]]. exists P. split; [exact HP|]. intros r Hr. specialize (HF r Hr). unfold row_ok in HF. revert HF.
  unfold bounds_ok, bounds_within, ext_le_q, q_le_ext. destruct (r_type r), (r_lb r), (r_ub r); try tauto; try lra; intros; split; lra.
Qed.

Example C14_example :
  volume_run (1 # 10000000) false ex_sys 3 40
    [(at_vol ex_data 40 2, ex_x); (at_vol ex_data 46 1, ex_x); (at_vol ex_data 49 3, ex_y)] 16.
Proof.
  assert (0 <= 1 # 10000000) as Ht by (vm_compute; discriminate).
  assert (forall v' w, v' = w -> forall v l, volume_run (1 # 10000000) false ex_sys 3 v l w -> volume_run (1 # 10000000) false ex_sys 3 v l v') as cv
    by (intros; now subst).
  apply vr_step; [reflexivity|reflexivity|apply solved_solved_within; [exact Ht|apply solved_check_sound; vm_compute; reflexivity]|].
  replace (vol_after ex_sys (at_vol ex_data 40 2) (committed false ex_sys ex_x) 3) with 46 by (vm_compute; reflexivity).
  apply vr_step; [reflexivity|reflexivity|apply solved_solved_within; [exact Ht|apply solved_check_sound; vm_compute; reflexivity]|].
  replace (vol_after ex_sys (at_vol ex_data 46 1) (committed false ex_sys ex_x) 3) with 49 by (vm_compute; reflexivity).
  apply vr_step; [reflexivity|reflexivity|apply solved_solved_within; [exact Ht|apply solved_check_sound; vm_compute; reflexivity]|].
  replace (vol_after ex_sys (at_vol ex_data 49 3) (committed false ex_sys ex_y) 3) with 16 by (vm_compute; reflexivity).
  apply vr_nil.
Qed.

(** Row bounds are respected: drawing 12 a day for 4 days from 49 (minimum 10) is not a solution. *)
Example C14_example_infeasible : ~ solved false ex_sys (at_vol ex_data 49 4) ex_y.
Proof.
  intros H. destruct (C16_lp_limits_that_flow _ _ _ _ 3 ex_wf H) as [L _]; try reflexivity; [cbn; tauto|discriminate|].
  vm_compute in L. apply L. reflexivity.
Qed.

Example C15_example : volume_along (Fin 100) 0 50 [(10, 2); (- (3), 10); (60, 1); (- (1 # 3000000), 1)] == 100 /\
  gained [(10, 2); (- (3), 10); (60, 1); (- (1 # 3000000), 1)] == 50 - (1 # 3000000).
Proof. split; vm_compute; reflexivity. Qed.

Example C34_example : get_current_pc (pc_after 50 10 3 (Fin 100) 0 None) == 8 # 10 /\
  get_current_pc (pc_after 0 0 3 (Fin 0) 0 None) == 1 /\ get_current_pc (Some (- (1 # 2))) == 0.
Proof. repeat split; vm_compute; reflexivity. Qed.

Example C36_example : aggregated_along [(Fin 10, 0); (Fin 100, 5)] 60 [([- (2); 3], 2); ([1; 1], 1)] == 64 /\
  qsum (members_along [(Fin 10, 0); (Fin 100, 5)] [10; 50] [([- (2); 3], 2); ([1; 1], 1)]) == 64.
Proof. split; vm_compute; reflexivity. Qed.
