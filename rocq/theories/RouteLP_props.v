(** The route-based linear programme: C12, C13, C16, C17, C18, C19, C20, C31. *)
From Verif Require Import Base Paths Sorting Routes_model LP_model Sys_model RouteLP_model RouteLP_spec
  RouteLP_proofs RouteLP_flow LP_check.
Open Scope Q_scope.

(** C12.  In every domain the flow of the inputs is the flow of the outputs; a link passes on what it
    receives and that is the flow it reports; water moves along edges of the graph only. *)
Theorem C12_domain_balance : forall triv S d x D, wf_sys S -> solved triv S d x ->
  qsum (map (fun n => bq (is_input (s_kind S n) && Nat.eqb (s_domain S n) D) * committed triv S x n) (s_nodes S)) ==
  qsum (map (fun n => bq (is_output (s_kind S n) && Nat.eqb (s_domain S n) D) * committed triv S x n) (s_nodes S)).
Proof. intros. now apply domain_balance. Qed.
Print Assumptions C12_domain_balance.

Theorem C12_link_balance : forall triv S d x n, wf_sys S -> solved triv S d x ->
  In n (s_nodes S) -> s_kind S n = KLink ->
  qsum (map (fun a => edge_flow (routes triv S) x a n) (s_nodes S)) == committed triv S x n /\
  qsum (map (fun b => edge_flow (routes triv S) x n b) (s_nodes S)) == committed triv S x n.
Proof. intros. split; [now apply link_inflow|now apply link_outflow]. Qed.
Print Assumptions C12_link_balance.

Theorem C12_water_follows_edges : forall triv S x a b, wf_sys S -> ~ In (a, b) (s_edges S) ->
  edge_flow (routes triv S) x a b == 0.
Proof. exact edge_flow_on_edges. Qed.
Print Assumptions C12_water_follows_edges.

(** C13. *)
Theorem C13_flow_in_bounds : forall triv S d x n, wf_sys S -> solved triv S d x ->
  In n (s_nodes S) -> is_flow_node (s_kind S n) = true ->
  0 <= committed triv S x n /\ at_least (d_min d n) (committed triv S x n) /\ at_most (committed triv S x n) (d_max d n).
Proof. exact flow_in_bounds. Qed.
Print Assumptions C13_flow_in_bounds.

(** C16.  The flow of a storage is what its outputs took in less what its inputs gave out, and it is
    this number that the solver kept within what the volume allows. *)
Theorem C16_storage_flow : forall triv S d x st, wf_sys S -> solved triv S d x ->
  In st (s_nodes S) -> s_kind S st = KStorage ->
  committed triv S x st ==
  qsum (map (committed triv S x) (s_outputs S st)) - qsum (map (committed triv S x) (s_inputs S st)).
Proof. intros. now apply committed_storage_slots. Qed.
Print Assumptions C16_storage_flow.

Theorem C16_lp_limits_that_flow : forall triv S d x st, wf_sys S -> solved triv S d x -> 0 < d_days d ->
  In st (s_nodes S) -> s_kind S st = KStorage -> d_maxvol d st <> NInf ->
  - qmax (d_vol d st - d_minvol d st) 0 / d_days d <= committed triv S x st /\
  match d_maxvol d st with Fin m => committed triv S x st <= qmax (m - d_vol d st) 0 / d_days d | _ => True end.
Proof. exact storage_flow_limits. Qed.
Print Assumptions C16_lp_limits_that_flow.

(** C17.  The objective of the LP is the cost of the allocation in the user's terms. *)
Theorem C17_objective_is_user_cost : forall triv S d P x, wf_sys S -> posed triv S d = Ok P ->
  (forall r, In r (routes triv S) -> path_cost S d r == 0 \/ eps8 <= qabs (path_cost S d r)) ->
  objective P x == user_cost S d (committed triv S x).
Proof. exact objective_user_cost_exact. Qed.
Print Assumptions C17_objective_is_user_cost.

Theorem C17_objective_within_rounding : forall triv S d P x, wf_sys S -> posed triv S d = Ok P -> feasible P x ->
  objective P x - eps8 * total (routes triv S) x <= user_cost S d (committed triv S x) /\
  user_cost S d (committed triv S x) <= objective P x + eps8 * total (routes triv S) x.
Proof. exact objective_user_cost. Qed.
Print Assumptions C17_objective_within_rounding.

Theorem C17_cheapest_feasible : forall triv S d x y, wf_sys S -> solved_optimally triv S d x -> solved triv S d y ->
  user_cost S d (committed triv S x) <=
  user_cost S d (committed triv S y) + eps8 * (total (routes triv S) x + total (routes triv S) y).
Proof. exact cheapest. Qed.
Print Assumptions C17_cheapest_feasible.

(** C18. *)
Theorem C18_flow_ratios : forall triv S d x a m0 ms i mi fi f0,
  wf_sys S -> solved triv S d x -> In a (s_nodes S) -> s_kind S a = KAggregated -> s_has_factors S a = true ->
  s_members S a = m0 :: ms -> hd_error (d_factors d a) = Some f0 ->
  member_ok S m0 -> member_ok S mi ->
  nth_error (m0 :: ms) i = Some mi -> nth_error (d_factors d a) i = Some fi ->
  committed triv S x m0 * fi == committed triv S x mi * f0.
Proof. exact factor_ratio. Qed.
Print Assumptions C18_flow_ratios.

(** There is a factor for every member, and none is zero, in a timestep that was solved. *)
Theorem C18_factors_given : forall triv S d x a, solved triv S d x ->
  In a (s_nodes S) -> s_kind S a = KAggregated -> s_has_factors S a = true ->
  (2 <= length (s_members S a) <= length (d_factors d a))%nat /\ forall f, In f (d_factors d a) -> ~ f == 0.
Proof.
  intros triv S d x a [P [HP _]] Ha Hk Hf. apply posed_inv in HP. destruct (pf_factor _ _ _ _ HP a Ha Hk Hf) as [l [Hl _]].
  unfold factor_rows in Hl. destruct (s_members S a) as [|m0 ms]; [discriminate|].
  destruct (factors_usable (m0 :: ms) (d_factors d a)) eqn:U; [|discriminate].
  split; [now apply factors_usable_length|]. intros f. now apply (factors_usable_nonzero _ _ _ U).
Qed.
Print Assumptions C18_factors_given.

(** C19. *)
Theorem C19_aggregated_bounds_partial : forall triv S d x a, wf_sys S -> solved triv S d x ->
  In a (s_nodes S) -> s_kind S a = KAggregated ->
  length (weights_of S a) = length (s_members S a) ->
  (forall m, In m (s_members S a) -> member_ok S m) ->
  (forall r, In r (routes triv S) -> one_member (s_members S a) r) ->
  at_least (d_min d a) (aggregated_flow S (committed triv S x) a) /\
  at_most (aggregated_flow S (committed triv S x) a) (d_max d a).
Proof. exact agg_flow_bounds. Qed.
Print Assumptions C19_aggregated_bounds_partial.

(** C20. *)
Theorem C20_cross_domain : forall triv S d x o, wf_sys S -> solved triv S d x ->
  In o (s_nodes S) -> s_kind S o = KOutput -> (exists i, supplies S o i = true) ->
  committed triv S x o ==
  qsum (map (fun i => committed triv S x i / s_conv S i) (filter (supplies S o) (s_nodes S))).
Proof. exact cross_balance. Qed.
Print Assumptions C20_cross_domain.

(** C31.  Whatever the volumes are. *)
Theorem C31_zero_is_feasible : forall triv S d P, posed triv S d = Ok P -> 0 < d_days d ->
  (forall n, In n (s_nodes S) -> is_flow_node (s_kind S n) = true \/ s_kind S n = KAggregated ->
     ext_le_q (d_min d n) 0 /\ q_le_ext 0 (d_max d n)) ->
  feasible P (fun _ => 0).
Proof. exact zero_feasible. Qed.
Print Assumptions C31_zero_is_feasible.

(** ** Example: a catchment (1), a link (2), a reservoir (3, with output slot 4 and input slot 5), a
    link (6) that can also pump back into the reservoir, a demand (7); the demand feeds an input (11) of
    another domain that supplies an output (12); a licence (10) on the links, an aggregated node with
    factors (9) and one with a maximum (8). *)
Definition ex_sys : sys := {|
  s_nodes := [1; 2; 3; 4; 5; 6; 7; 8; 9; 10; 11; 12]%nat;
  s_edges := [(1, 2); (2, 4); (5, 6); (2, 6); (6, 7); (6, 4); (7, 11); (11, 12)]%nat;
  s_name := fun n => n; s_fqn := fun n => n;
  s_domain := fun n => if Nat.leb 11 n then 1%nat else 0%nat;
  s_kind := fun n => match n with
    | 1 | 5 | 11 => KInput | 2 | 6 => KLink | 4 | 7 | 12 => KOutput | 3 => KStorage
    | 8 | 9 => KAggregated | 10 => KVirtual | _ => KOther end%nat;
  s_slot := fun n => match n with 4 => OutputOf 3 | 5 => InputOf 3 | _ => NoSlot end%nat;
  s_inputs := fun n => match n with 3 => [5] | _ => [] end%nat;
  s_outputs := fun n => match n with 3 => [4] | _ => [] end%nat;
  s_members := fun n => match n with 8 => [1; 5] | 9 => [7; 12] | 10 => [2; 6] | _ => [] end%nat;
  s_vfactors := fun n => match n with 10%nat => [1; 1 # 2] | _ => [] end;
  s_has_factors := fun n => Nat.eqb n 9;
  s_weights := fun n => match n with 8%nat => Some [1; 2] | _ => None end;
  s_conv := fun n => match n with 11%nat => 2 | _ => 1 end
|}.

Definition ex_data : data := {|
  d_cost := fun n => match n with 1%nat => 3 | 3%nat => - (5) | 6%nat => 1 | 7%nat => - (20) | _ => 0 end;
  d_min := fun n => match n with 2%nat => Fin 1 | _ => Fin 0 end;
  d_max := fun n => match n with 1%nat => Fin 30 | 7%nat => Fin 12 | 8%nat => Fin 100 | _ => PInf end;
  d_factors := fun n => match n with 9%nat => [1; 2] | _ => [] end;
  d_minvol := fun n => match n with 3%nat => 10 | _ => 0 end;
  d_maxvol := fun n => match n with 3%nat => Fin 60 | 10%nat => Fin 1000 | _ => Fin 0 end;
  d_vol := fun n => match n with 3%nat => 40 | 10%nat => 700 | _ => 0 end;
  d_active := fun _ => true;
  d_days := 2
|}.

(** Amounts for the routes [1;2;4], [1;2;6;4], [1;2;6;7], [5;6;4], [5;6;7], [11;12]. *)
Definition ex_x : nat -> Q := fun c => nth c [7; 2; 4; 1; 6; 20] 0.

Example routes_example : routes false ex_sys =
  [[1; 2; 4]; [1; 2; 6; 4]; [1; 2; 6; 7]; [5; 6; 4]; [5; 6; 7]; [11; 12]]%nat.
Proof. vm_compute. reflexivity. Qed.

Example ex_solved : solved false ex_sys ex_data ex_x.
Proof. apply solved_check_sound. vm_compute. reflexivity. Qed.

Lemma ex_terminals : terminals_clean ex_sys.
Proof.
  intros a b H. cbn in H. repeat (destruct H as [H|H]; [injection H as <- <-; cbn; intros; try discriminate; split; discriminate|]).
  contradiction.
Qed.

Example ex_wf : wf_sys ex_sys.
Proof.
  constructor; try exact (fun _ => NoDup_nil _).
  - cbn. repeat constructor; cbn; intuition discriminate.
  - cbn. repeat constructor; cbn; intuition discriminate.
  - cbn. intros a b H.
    repeat (destruct H as [H|H]; [injection H as <- <-; split; cbn; tauto|]). contradiction.
  - intros n st _. cbn. destruct st as [|[|[|[|st]]]];
    do 6 (destruct n as [|n]; [split; cbn; intuition (try discriminate)|]); split; cbn; intuition discriminate.
  - intros n st _. cbn. destruct st as [|[|[|[|st]]]];
    do 6 (destruct n as [|n]; [split; cbn; intuition (try discriminate)|]); split; cbn; intuition discriminate.
  - intros n st H. destruct st as [|[|[|[|st]]]]; cbn in H; try contradiction. destruct H as [<-|[]]. cbn. tauto.
  - intros n st H. destruct st as [|[|[|[|st]]]]; cbn in H; try contradiction. destruct H as [<-|[]]. cbn. tauto.
  - intros n st H. cbn in H. do 6 (destruct n as [|n]; [destruct H as [H|H]; try discriminate H; injection H as <-; cbn; tauto|]).
    destruct H as [H|H]; discriminate H.
  - intros st. destruct st as [|[|[|[|st]]]]; repeat constructor; cbn; tauto.
  - intros st. destruct st as [|[|[|[|st]]]]; repeat constructor; cbn; tauto.
Qed.

Example C12_example : map (committed false ex_sys ex_x) [1; 2; 3; 4; 5; 6; 7; 11; 12]%nat
  = map (fun q => q) [13; 13; 3; 10; 7; 13; 10; 20; 20].
Proof. vm_compute. reflexivity. Qed.

(** C16: 7 + 2 + 1 in, 6 + 1 out (1 unit goes round): the reservoir gains 3 a day and may gain 10. *)
Example C16_example : committed false ex_sys ex_x 3%nat == 3 /\ 3 <= qmax (60 - 40) 0 / 2.
Proof. split; vm_compute; [reflexivity|discriminate]. Qed.

Example C17_example : exists P, posed false ex_sys ex_data = Ok P /\
  objective P ex_x == 3 * 13 + 1 * 13 + - (5) * 3 + - (20) * 10 /\
  user_cost ex_sys ex_data (committed false ex_sys ex_x) == objective P ex_x.
Proof.
  destruct (posed false ex_sys ex_data) as [P|e] eqn:E; [|vm_compute in E; discriminate].
  exists P. split; [reflexivity|]. vm_compute in E. injection E as <-. split; vm_compute; reflexivity.
Qed.

Example C18_example : committed false ex_sys ex_x 7%nat * 2 == committed false ex_sys ex_x 12%nat * 1 /\
  member_ok ex_sys 7 /\ member_ok ex_sys 12.
Proof.
  split; [vm_compute; reflexivity|]. split; (split; [cbn; tauto|split; [reflexivity|apply clean_all; exact ex_terminals]]).
Qed.

Example C19_example : aggregated_flow ex_sys (committed false ex_sys ex_x) 8%nat == 1 * 13 + 2 * 7 /\
  (forall r, In r (routes false ex_sys) -> one_member (s_members ex_sys 8%nat) r).
Proof.
  split; [vm_compute; reflexivity|]. rewrite routes_example. intros r Hr i j a b Hi Hj Ha Hb.
  destruct i as [|[|i]], j as [|[|j]]; cbn in Hi, Hj; try reflexivity;
    try (destruct i; discriminate); try (destruct j; discriminate);
    injection Hi as <-; injection Hj as <-;
    repeat (destruct Hr as [<-|Hr]; [cbn in Ha, Hb; intuition discriminate|]); contradiction.
Qed.

Example C20_example : committed false ex_sys ex_x 7%nat == committed false ex_sys ex_x 11%nat / 2 /\
  supplies ex_sys 7 11 = true.
Proof. split; vm_compute; reflexivity. Qed.

Definition ex_data0 : data := {|
  d_cost := d_cost ex_data; d_min := fun _ => Fin 0; d_max := d_max ex_data; d_factors := d_factors ex_data;
  d_minvol := d_minvol ex_data; d_maxvol := d_maxvol ex_data; d_vol := d_vol ex_data;
  d_active := d_active ex_data; d_days := 2 |}.

Example C31_example : solved false ex_sys ex_data0 (fun _ => 0) /\ ~ solved false ex_sys ex_data (fun _ => 0).
Proof.
  split.
  - apply solved_check_sound. vm_compute. reflexivity.
  - intros H. apply (C13_flow_in_bounds _ _ _ _ 2 ex_wf) in H as [_ [H _]]; [|cbn; tauto|reflexivity].
    vm_compute in H. apply H. reflexivity.
Qed.

(** ** Counterexamples *)
(** Two links in series are members of an aggregated node with maximum 10: the row holds one
    coefficient per route, so the reported flow is 20. *)
Definition series_sys : sys := {|
  s_nodes := [1; 2; 3; 4; 5]%nat;
  s_edges := [(1, 2); (2, 3); (3, 4)]%nat;
  s_name := fun n => n; s_fqn := fun n => n; s_domain := fun _ => 0%nat;
  s_kind := fun n => match n with 1 => KInput | 2 | 3 => KLink | 4 => KOutput | 5 => KAggregated | _ => KOther end%nat;
  s_slot := fun _ => NoSlot; s_inputs := fun _ => []; s_outputs := fun _ => [];
  s_members := fun n => match n with 5 => [2; 3] | _ => [] end%nat;
  s_vfactors := fun _ => []; s_has_factors := fun _ => false; s_weights := fun _ => None; s_conv := fun _ => 1
|}.

Definition series_data : data := {|
  d_cost := fun _ => 0; d_min := fun _ => Fin 0;
  d_max := fun n => match n with 5%nat => Fin 10 | _ => PInf end;
  d_factors := fun _ => []; d_minvol := fun _ => 0; d_maxvol := fun _ => Fin 0; d_vol := fun _ => 0;
  d_active := fun _ => true; d_days := 1 |}.

Lemma wf_no_storage S : (forall n, s_slot S n = NoSlot) -> (forall n, s_inputs S n = []) -> (forall n, s_outputs S n = []) ->
  NoDup (s_nodes S) -> NoDup (s_edges S) -> (forall a b, In (a, b) (s_edges S) -> In a (s_nodes S) /\ In b (s_nodes S)) -> wf_sys S.
Proof.
  intros H1 H2 H3 H4 H5 H6. constructor; auto.
  - intros n st _. rewrite H1, H2. split; [discriminate|contradiction].
  - intros n st _. rewrite H1, H3. split; [discriminate|contradiction].
  - intros n st. rewrite H2. contradiction.
  - intros n st. rewrite H3. contradiction.
  - intros n st. rewrite H1. intros [H|H]; discriminate.
  - intros st. rewrite H2. constructor.
  - intros st. rewrite H3. constructor.
Qed.

Theorem C19_members_in_series_refuted : exists S d x a, wf_sys S /\ solved false S d x /\ In a (s_nodes S) /\
  s_kind S a = KAggregated /\ (forall m, In m (s_members S a) -> member_ok S m) /\
  length (weights_of S a) = length (s_members S a) /\
  ~ at_most (aggregated_flow S (committed false S x) a) (d_max d a).
Proof.
  exists series_sys, series_data, (fun _ => 10), 5%nat. split; [|split; [|split; [|split; [|split; [|split]]]]].
  - apply wf_no_storage; try reflexivity.
    + cbn. repeat constructor; cbn; intuition discriminate.
    + cbn. repeat constructor; cbn; intuition discriminate.
    + cbn. intros a b H. repeat (destruct H as [H|H]; [injection H as <- <-; cbn; tauto|]). contradiction.
  - apply solved_check_sound. vm_compute. reflexivity.
  - cbn. tauto.
  - reflexivity.
  - cbn. intros m [<-|[<-|[]]]; (split; [cbn; tauto|split; [reflexivity|apply clean_link; reflexivity]]).
  - reflexivity.
  - vm_compute. intros H. apply H. reflexivity.
Qed.
Print Assumptions C19_members_in_series_refuted.

(** An output (2) drained by an input (3) of its own domain: the factor row counts a route that passes
    through the output, the flow reported for the output does not. *)
Definition through_sys : sys := {|
  s_nodes := [1; 2; 3; 4; 5; 6; 7; 8]%nat;
  s_edges := [(1, 2); (2, 3); (3, 4); (5, 6); (6, 7)]%nat;
  s_name := fun n => n; s_fqn := fun n => n; s_domain := fun _ => 0%nat;
  s_kind := fun n => match n with 1 | 3 | 5 => KInput | 6 => KLink | 2 | 4 | 7 => KOutput | 8 => KAggregated | _ => KOther end%nat;
  s_slot := fun _ => NoSlot; s_inputs := fun _ => []; s_outputs := fun _ => [];
  s_members := fun n => match n with 8 => [2; 6] | _ => [] end%nat;
  s_vfactors := fun _ => []; s_has_factors := fun n => Nat.eqb n 8; s_weights := fun _ => None; s_conv := fun _ => 1
|}.

Definition through_data : data := {|
  d_cost := fun _ => 0; d_min := fun _ => Fin 0; d_max := fun _ => PInf;
  d_factors := fun _ => [1; 1]; d_minvol := fun _ => 0; d_maxvol := fun _ => Fin 0; d_vol := fun _ => 0;
  d_active := fun _ => true; d_days := 1 |}.

Theorem C18_output_drained_refuted : exists S d x a m0 m1, wf_sys S /\ solved false S d x /\ In a (s_nodes S) /\
  s_kind S a = KAggregated /\ s_has_factors S a = true /\ s_members S a = [m0; m1] /\ d_factors d a = [1; 1] /\
  In m0 (s_nodes S) /\ In m1 (s_nodes S) /\ is_flow_node (s_kind S m0) = true /\ is_flow_node (s_kind S m1) = true /\
  ~ committed false S x m0 * 1 == committed false S x m1 * 1.
Proof.
  exists through_sys, through_data, (fun c => nth c [0; 5; 0; 5] 0), 8%nat, 2%nat, 6%nat.
  split; [|split].
  - apply wf_no_storage; try reflexivity.
    + cbn. repeat constructor; cbn; intuition discriminate.
    + cbn. repeat constructor; cbn; intuition discriminate.
    + cbn. intros a b H. repeat (destruct H as [H|H]; [injection H as <- <-; cbn; tauto|]). contradiction.
  - apply solved_check_sound. vm_compute. reflexivity.
  - repeat (split; [cbn; tauto|]). vm_compute. discriminate.
Qed.
Print Assumptions C18_output_drained_refuted.
