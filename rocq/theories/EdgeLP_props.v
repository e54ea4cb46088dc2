(** The edge-based solver: C29, and C12, C13, C16, C17, C18, C19, C20, C21 for its answers. *)
From Verif Require Import Base Paths Sorting Routes_model LP_model Sys_model RouteLP_model RouteLP_spec
  RouteLP_proofs RouteLP_flow RouteLP_props LP_check EdgeLP_model EdgeLP_spec EdgeLP_meets EdgeLP_proofs EdgeLP_decomp
  EdgeLP_posed EdgeLP_limits EdgeLP_check.
Open Scope Q_scope.

(** ** C29 *)
(** What the route solver may answer the edge solver may answer: the same flow at every node, on every edge
    what the routes send along it, and an objective that is the cost of these flows. *)
Theorem C29_route_answer_on_edges : forall triv S d P E x, comparable triv S -> ~ cyclic (inner_edge S) ->
  posed triv S d = Ok P -> eposed triv S d = Ok E -> feasible P x ->
  exists y, feasible E y /\ inner_only S y /\
    (forall n, ecommitted S y n == committed triv S x n) /\
    (forall k a b, nth_error (s_edges S) k = Some (a, b) -> y k == edge_flow (routes triv S) x a b) /\
    objective E y == user_cost S d (committed triv S x) /\
    objective P x - eps8 * total (routes triv S) x <= objective E y /\
    objective E y <= objective P x + eps8 * total (routes triv S) x.
Proof.
  intros triv S d P E x C Ac HP HE F. exists (edges_of triv S x).
  destruct (route_to_edge triv S d P E x C Ac HP HE F) as [Fy [I Hn]].
  assert (objective E (edges_of triv S x) == user_cost S d (committed triv S x)) as Ho.
  { rewrite (edge_objective_user_cost triv S d E _ (cmp_regular _ _ C) I HE). now apply user_cost_ext. }
  split; [exact Fy|]. split; [exact I|]. split; [exact Hn|]. split; [|split; [exact Ho|]].
  - intros k a b Hk. unfold edges_of. rewrite Hk. reflexivity.
  - rewrite Ho. now apply objective_user_cost; [apply C| |].
Qed.
Print Assumptions C29_route_answer_on_edges.

(** And the other way round. *)
Theorem C29_edge_answer_on_routes : forall triv S d P E y, comparable triv S -> ~ cyclic (inner_edge S) ->
  posed triv S d = Ok P -> eposed triv S d = Ok E -> feasible E y -> inner_only S y ->
  exists x, feasible P x /\
    (forall n, committed triv S x n == ecommitted S y n) /\
    (forall k a b, nth_error (s_edges S) k = Some (a, b) -> edge_flow (routes triv S) x a b == y k) /\
    objective E y == user_cost S d (committed triv S x) /\
    objective P x - eps8 * total (routes triv S) x <= objective E y /\
    objective E y <= objective P x + eps8 * total (routes triv S) x.
Proof.
  intros triv S d P E y C Ac HP HE F I.
  destruct (edge_to_route triv S d P E y C Ac HP HE F I) as [x [Fx [Hk Hn]]]. exists x.
  assert (objective E y == user_cost S d (committed triv S x)) as Ho.
  { rewrite (edge_objective_user_cost triv S d E y (cmp_regular _ _ C) I HE). apply user_cost_ext. intros; symmetry; auto. }
  split; [exact Fx|]. split; [exact Hn|]. split; [|split; [exact Ho|]].
  - intros k a b E'. specialize (Hk k). unfold edges_of in Hk. rewrite E' in Hk. symmetry. apply Hk. apply nth_error_Some. congruence.
  - rewrite Ho. now apply objective_user_cost; [apply C| |].
Qed.
Print Assumptions C29_edge_answer_on_routes.

(** One domain: the two solvers allow the same flows, the cheapest of one are the cheapest of the other and
    cost the same. *)
Theorem C29_same_flows : forall triv S d P E, comparable triv S -> ~ cyclic (fun a b => In (a, b) (s_edges S)) ->
  (forall a b, In (a, b) (s_edges S) -> s_domain S a = s_domain S b) ->
  posed triv S d = Ok P -> eposed triv S d = Ok E ->
  forall fl, (exists x, feasible P x /\ forall n, committed triv S x n == fl n) <->
             (exists y, feasible E y /\ forall n, ecommitted S y n == fl n).
Proof.
  intros triv S d P E C Ac D HP HE fl. assert (~ cyclic (inner_edge S)) as Ac'.
  { intros [a H]. apply Ac. exists a. revert H. generalize a at 2 4. intros b H.
    induction H as [u v H|u v w H _ IH]; [apply plus_one, H|eapply plus_step; [apply H|exact IH]]. }
  split.
  - intros [x [F H]]. destruct (route_to_edge triv S d P E x C Ac' HP HE F) as [Fy [_ Hn]].
    exists (edges_of triv S x). split; [exact Fy|]. intros n. rewrite Hn. apply H.
  - intros [y [F H]]. destruct (edge_to_route triv S d P E y C Ac' HP HE F (one_domain_inner S y D)) as [x [Fx [_ Hn]]].
    exists x. split; [exact Fx|]. intros n. rewrite Hn. apply H.
Qed.
Print Assumptions C29_same_flows.

Theorem C29_same_optima : forall triv S d P E, comparable triv S -> ~ cyclic (inner_edge S) ->
  (forall a b, In (a, b) (s_edges S) -> s_domain S a = s_domain S b) ->
  posed triv S d = Ok P -> eposed triv S d = Ok E ->
  (forall r, In r (routes triv S) -> path_cost S d r == 0 \/ eps8 <= qabs (path_cost S d r)) ->
  (forall x, optimal P x -> exists y, optimal E y /\ objective E y == objective P x /\
     forall n, ecommitted S y n == committed triv S x n) /\
  (forall y, optimal E y -> exists x, optimal P x /\ objective P x == objective E y /\
     forall n, committed triv S x n == ecommitted S y n).
Proof.
  intros triv S d P E C Ac D HP HE Hc. split.
  - intros x Ox. exists (edges_of triv S x).
    destruct (optimal_to_edge triv S d P E C Ac HP HE Hc x Ox) as [F [Ho M]].
    split; [split; [exact F|]|].
    + intros z Fz. apply M; [exact Fz|now apply one_domain_inner].
    + split; [exact Ho|]. apply (route_to_edge triv S d P E x C Ac HP HE). apply Ox.
  - intros y [F M]. destruct (optimal_to_route triv S d P E C Ac HP HE Hc y F (one_domain_inner S y D)) as [x [Ox [Ho [Hn _]]]].
    { intros z Fz _. now apply M. }
    exists x. auto.
Qed.
Print Assumptions C29_same_optima.

(** Whatever the route solver can pose the edge solver can pose, unless a storage releases straight into itself. *)
Theorem C29_both_can_be_posed : forall triv S d P, comparable triv S -> ~ cyclic (inner_edge S) -> no_short_circuit S ->
  posed triv S d = Ok P -> exists E, eposed triv S d = Ok E.
Proof. exact eposed_total. Qed.
Print Assumptions C29_both_can_be_posed.

(** ** The answers of the edge solver *)
Theorem C12_edge_domain_balance : forall triv S d y D, regular S -> inner_only S y -> edge_solved triv S d y ->
  qsum (map (fun n => bq (is_input (s_kind S n) && Nat.eqb (s_domain S n) D) * ecommitted S y n) (s_nodes S)) ==
  qsum (map (fun n => bq (is_output (s_kind S n) && Nat.eqb (s_domain S n) D) * ecommitted S y n) (s_nodes S)).
Proof. intros. eapply edge_domain_balance; eauto. Qed.
Print Assumptions C12_edge_domain_balance.

Theorem C12_edge_link_balance : forall triv S d y n, regular S -> inner_only S y -> edge_solved triv S d y ->
  In n (s_nodes S) -> s_kind S n = KLink ->
  qsum (map (fun a => edge_amount S y a n) (s_nodes S)) == ecommitted S y n /\
  qsum (map (fun b => edge_amount S y n b) (s_nodes S)) == ecommitted S y n.
Proof. intros. eapply edge_link_balance; eauto. Qed.
Print Assumptions C12_edge_link_balance.

Theorem C13_edge_flow_in_bounds : forall triv S d y n, regular S -> inner_only S y -> edge_solved triv S d y ->
  In n (s_nodes S) -> is_flow_node (s_kind S n) = true ->
  0 <= ecommitted S y n /\ at_least (d_min d n) (ecommitted S y n) /\ at_most (ecommitted S y n) (d_max d n).
Proof. intros. eapply edge_flow_in_bounds; eauto. Qed.
Print Assumptions C13_edge_flow_in_bounds.

Theorem C16_edge_storage_flow : forall triv S d y st, regular S -> inner_only S y -> edge_solved triv S d y ->
  In st (s_nodes S) -> s_kind S st = KStorage ->
  ecommitted S y st == qsum (map (ecommitted S y) (s_outputs S st)) - qsum (map (ecommitted S y) (s_inputs S st)).
Proof. intros. eapply edge_storage_slots; eauto. Qed.
Print Assumptions C16_edge_storage_flow.

Theorem C16_edge_lp_limits_that_flow : forall triv S d y st, regular S -> inner_only S y -> edge_solved triv S d y ->
  0 < d_days d -> In st (s_nodes S) -> s_kind S st = KStorage -> d_maxvol d st <> NInf ->
  - qmax (d_vol d st - d_minvol d st) 0 / d_days d <= ecommitted S y st /\
  match d_maxvol d st with Fin m => ecommitted S y st <= qmax (m - d_vol d st) 0 / d_days d | _ => True end.
Proof. intros. eapply edge_storage_limits; eauto. Qed.
Print Assumptions C16_edge_lp_limits_that_flow.

Theorem C17_edge_objective_is_user_cost : forall triv S d E y, regular S -> inner_only S y -> eposed triv S d = Ok E ->
  objective E y == user_cost S d (ecommitted S y).
Proof. exact edge_objective_user_cost. Qed.
Print Assumptions C17_edge_objective_is_user_cost.

Theorem C18_edge_flow_ratios : forall triv S d y a m0 ms i mi fi f0, regular S -> inner_only S y -> edge_solved triv S d y ->
  In a (s_nodes S) -> s_kind S a = KAggregated -> s_has_factors S a = true ->
  s_members S a = m0 :: ms -> hd_error (d_factors d a) = Some f0 ->
  nth_error (m0 :: ms) i = Some mi -> nth_error (d_factors d a) i = Some fi ->
  ecommitted S y m0 * fi == ecommitted S y mi * f0.
Proof. intros. eapply edge_factor_ratio; eauto. Qed.
Print Assumptions C18_edge_flow_ratios.

(** Members in series are counted each; only a member joined to an output that is a member is not. *)
Theorem C19_edge_aggregated_bounds : forall triv S d y a, regular S -> inner_only S y -> edge_solved triv S d y ->
  In a (s_nodes S) -> s_kind S a = KAggregated -> NoDup (s_members S a) ->
  (forall m m', In m (s_members S a) -> In m' (s_members S a) -> s_kind S m' = KOutput -> ~ In (m, m') (s_edges S)) ->
  at_least (d_min d a) (aggregated_flow S (ecommitted S y) a) /\ at_most (aggregated_flow S (ecommitted S y) a) (d_max d a).
Proof. intros. eapply edge_agg_bounds; eauto. Qed.
Print Assumptions C19_edge_aggregated_bounds.

Theorem C20_edge_cross_domain : forall triv S d y o, regular S -> inner_only S y -> edge_solved triv S d y ->
  In o (s_nodes S) -> s_kind S o = KOutput -> (exists i, feeds S o i = true) ->
  ecommitted S y o == qsum (map (fun i => ecommitted S y i / s_conv S i) (filter (feeds S o) (s_nodes S))).
Proof. intros. eapply edge_cross_balance; eauto. Qed.
Print Assumptions C20_edge_cross_domain.

(** An active licence is charged at most what is left of it; also when a member is listed twice. *)
Theorem C21_edge_licence_limits : forall triv S d y v, regular S -> inner_only S y -> edge_solved triv S d y ->
  0 < d_days d -> In v (s_nodes S) -> s_kind S v = KVirtual -> d_active d v = true -> d_maxvol d v <> NInf ->
  - qmax (d_vol d v - d_minvol d v) 0 / d_days d <= virtual_flow S (ecommitted S y) v /\
  match d_maxvol d v with Fin m => virtual_flow S (ecommitted S y) v <= qmax (m - d_vol d v) 0 / d_days d | _ => True end.
Proof. intros. eapply edge_virtual_limits; eauto. Qed.
Print Assumptions C21_edge_licence_limits.

(** ** Example: the network of RouteLP_props.v (two domains, a reservoir that can be pumped back into, a
    licence, factors, weights).  Its edges in order carry: *)
Definition ex_y : nat -> Q := fun k => nth k [13; 7; 7; 6; 10; 3; 0; 20] 0.

Example ex_comparable : comparable false ex_sys.
Proof. apply comparable_check_sound; [exact ex_wf|vm_compute; reflexivity]. Qed.

Example ex_acyclic : ~ cyclic (inner_edge ex_sys).
Proof. apply (ranked_sound _ (fun n => match n with 4%nat => 10 | n => n end)%nat). vm_compute. reflexivity. Qed.

Example ex_no_short_circuit : no_short_circuit ex_sys.
Proof.
  intros st a b Ha Hb. destruct st as [|[|[|[|st]]]]; cbn in Ha, Hb; try contradiction.
  destruct Ha as [<-|[]], Hb as [<-|[]]. cbn. intuition discriminate.
Qed.

Example C29_example : edge_solved false ex_sys ex_data ex_y /\ inner_only ex_sys ex_y /\
  (forall n, In n (s_nodes ex_sys) -> ecommitted ex_sys ex_y n == committed false ex_sys ex_x n) /\
  (exists E, eposed false ex_sys ex_data = Ok E /\ objective E ex_y == 3 * 13 + 1 * 13 + - (5) * 3 + - (20) * 10).
Proof.
  split; [apply edge_check_sound; vm_compute; reflexivity|]. split; [|split].
  - intros k a b Hk N. do 8 (destruct k as [|k]; [vm_compute in Hk; injection Hk as <- <-; first [exfalso; apply N; reflexivity|reflexivity]|]).
    destruct k; discriminate.
  - intros n Hn. cbn in Hn. repeat (destruct Hn as [<-|Hn]; [vm_compute; reflexivity|]). contradiction.
  - assert (match eposed false ex_sys ex_data with Ok E => objective E ex_y == 3 * 13 + 1 * 13 + - (5) * 3 + - (20) * 10 | Err _ => False end)
      as H by (vm_compute; reflexivity).
    destruct (eposed false ex_sys ex_data) as [E|e]; [|contradiction]. exists E. split; [reflexivity|exact H].
Qed.

(** The flows that [ex_y] commits satisfy what the theorems say. *)
Example edge_example : ecommitted ex_sys ex_y 3%nat == 3 /\ virtual_flow ex_sys (ecommitted ex_sys ex_y) 10%nat == - (13 + (13 # 2)) /\
  aggregated_flow ex_sys (ecommitted ex_sys ex_y) 8%nat == 1 * 13 + 2 * 7 /\
  ecommitted ex_sys ex_y 7%nat * 2 == ecommitted ex_sys ex_y 12%nat * 1 /\
  ecommitted ex_sys ex_y 7%nat == ecommitted ex_sys ex_y 11%nat / 2.
Proof. repeat split; vm_compute; reflexivity. Qed.

(** ** Where the solvers differ *)
(** A cycle of links: the edge solver can send water round it. *)
Definition cycle_sys : sys := {|
  s_nodes := [1; 2; 3; 4]%nat;
  s_edges := [(1, 2); (2, 3); (3, 4); (3, 2)]%nat;
  s_name := fun n => n; s_fqn := fun n => n; s_domain := fun _ => 0%nat;
  s_kind := fun n => match n with 1 => KInput | 2 | 3 => KLink | 4 => KOutput | _ => KOther end%nat;
  s_slot := fun _ => NoSlot; s_inputs := fun _ => []; s_outputs := fun _ => [];
  s_members := fun _ => []; s_vfactors := fun _ => []; s_has_factors := fun _ => false; s_weights := fun _ => None; s_conv := fun _ => 1
|}.
Definition cycle_data : data := {|
  d_cost := fun n => match n with 2%nat => - (1) | _ => 0 end; d_min := fun _ => Fin 0;
  d_max := fun n => match n with 1%nat => Fin 3 | 2%nat => Fin 10 | _ => PInf end;
  d_factors := fun _ => []; d_minvol := fun _ => 0; d_maxvol := fun _ => Fin 0; d_vol := fun _ => 0;
  d_active := fun _ => true; d_days := 1 |}.

Lemma plain_wf S : (forall n, s_slot S n = NoSlot) -> (forall n, s_inputs S n = []) -> (forall n, s_outputs S n = []) ->
  nodupb (s_nodes S) = true -> NoDup (s_edges S) ->
  forallb (fun e => memb (fst e) (s_nodes S) && memb (snd e) (s_nodes S)) (s_edges S) = true -> wf_sys S.
Proof.
  intros H1 H2 H3 H4 H5 H6. apply wf_no_storage; auto; [now apply nodupb_NoDup|]. rewrite forallb_forall in H6.
  intros a b He. specialize (H6 _ He). apply andb_true_iff in H6 as [Ha Hb]. cbn in Ha, Hb.
  destruct (membP a (s_nodes S)); [|discriminate]. destruct (membP b (s_nodes S)); [|discriminate]. auto.
Qed.
Ltac edges_NoDup := cbn; repeat constructor; cbn; intuition discriminate.

Theorem C29_cyclic_network_refuted : exists S d P E y, comparable false S /\
  (forall a b, In (a, b) (s_edges S) -> s_domain S a = s_domain S b) /\
  posed false S d = Ok P /\ eposed false S d = Ok E /\ feasible E y /\
  forall x, feasible P x -> ~ (forall n, committed false S x n == ecommitted S y n).
Proof.
  exists cycle_sys, cycle_data.
  destruct (posed false cycle_sys cycle_data) as [P|e] eqn:HP; [|vm_compute in HP; discriminate].
  assert (edge_check false cycle_sys cycle_data (fun k => nth k [3; 10; 3; 7] 0) = true) as Hf by (vm_compute; reflexivity).
  unfold edge_check in Hf. destruct (eposed false cycle_sys cycle_data) as [E|e] eqn:HE; [|discriminate].
  exists P, E, (fun k => nth k [3; 10; 3; 7] 0).
  assert (wf_sys cycle_sys) as W by (apply plain_wf; try reflexivity; edges_NoDup).
  split; [apply comparable_check_sound; [exact W|vm_compute; reflexivity]|]. split; [reflexivity|].
  split; [reflexivity|]. split; [reflexivity|]. split.
  - apply feasible_check_sound. exact Hf.
  - intros x F H. pose proof (H 1%nat) as H1. pose proof (H 2%nat) as H2.
    rewrite committed_flow in H1, H2 by (try exact W; cbn; tauto).
    assert (routes false cycle_sys = [[1; 2; 3; 4]%nat]) as Er by (vm_compute; reflexivity).
    rewrite Er in H1, H2. unfold rsum in H1, H2. cbn [length seq map qsum nth] in H1, H2.
    assert (ecommitted cycle_sys (fun k => nth k [3; 10; 3; 7] 0) 1%nat == 3) as E1 by (vm_compute; reflexivity).
    assert (ecommitted cycle_sys (fun k => nth k [3; 10; 3; 7] 0) 2%nat == 10) as E2 by (vm_compute; reflexivity).
    rewrite E1 in H1. rewrite E2 in H2.
    assert (carries cycle_sys 1 [1; 2; 3; 4]%nat = true) as C1 by (vm_compute; reflexivity).
    assert (carries cycle_sys 2 [1; 2; 3; 4]%nat = true) as C2 by (vm_compute; reflexivity).
    change (enumerate [[1; 2; 3; 4]%nat]) with [(0, [1; 2; 3; 4])%nat] in H1, H2.
    cbn [map qsum fst snd] in H1, H2. rewrite C1 in H1. rewrite C2 in H2. unfold bq in H1, H2. lra.
Qed.
Print Assumptions C29_cyclic_network_refuted.

(** Members of an aggregated node in series: the route solver counts the water once, the edge solver twice. *)
Theorem C29_members_in_series_refuted : exists S d P E x, regular S /\ ~ cyclic (inner_edge S) /\
  (forall a b, In (a, b) (s_edges S) -> s_domain S a = s_domain S b) /\
  posed false S d = Ok P /\ eposed false S d = Ok E /\ feasible P x /\
  forall y, feasible E y -> ~ (forall n, ecommitted S y n == committed false S x n).
Proof.
  exists series_sys, series_data.
  assert (solved_check false series_sys series_data (fun _ => 10) = true) as Hp by (vm_compute; reflexivity).
  unfold solved_check in Hp. destruct (posed false series_sys series_data) as [P|e] eqn:HP; [|discriminate].
  assert (edge_check false series_sys series_data (fun _ => 0) = true) as Hf by (vm_compute; reflexivity).
  unfold edge_check in Hf. destruct (eposed false series_sys series_data) as [E|e] eqn:HE; [|discriminate].
  exists P, E, (fun _ => 10).
  assert (wf_sys series_sys) as W by (apply plain_wf; try reflexivity; edges_NoDup).
  assert (regular series_sys) as R by (apply regular_check_sound; [exact W|vm_compute; reflexivity]).
  split; [exact R|]. split; [apply (ranked_sound _ (fun n => n)); vm_compute; reflexivity|]. split; [reflexivity|].
  split; [reflexivity|]. split; [reflexivity|]. split.
  - apply feasible_check_sound. exact Hp.
  - intros y F H. assert (edge_solved false series_sys series_data y) as Hs by (exists E; split; [exact HE|exact F]).
    destruct (C19_edge_aggregated_bounds false series_sys series_data y 5 R) as [_ B]; auto.
    + apply one_domain_inner. reflexivity.
    + cbn. tauto.
    + cbn. repeat constructor; cbn; intuition discriminate.
    + cbn. intros m m' _ [<-|[<-|[]]]; discriminate.
    + unfold aggregated_flow in B. cbn [s_members weights_of s_weights series_sys length repeat combine map qsum fst snd] in B.
      change (ecommitted series_sys y 2 * 1 + (ecommitted series_sys y 3 * 1 + 0) <= 10 + eps8) in B.
      assert (committed false series_sys (fun _ => 10) 2 == 10) as E2 by (vm_compute; reflexivity).
      assert (committed false series_sys (fun _ => 10) 3 == 10) as E3 by (vm_compute; reflexivity).
      rewrite (H 2%nat), (H 3%nat), E2, E3 in B. unfold eps8 in B. lra.
Qed.
Print Assumptions C29_members_in_series_refuted.

(** A licence that lists the same link twice: the route solver charges it once, VirtualStorage.after twice. *)
Definition twice_sys : sys := {|
  s_nodes := [1; 2; 3; 4]%nat;
  s_edges := [(1, 2); (2, 3)]%nat;
  s_name := fun n => n; s_fqn := fun n => n; s_domain := fun _ => 0%nat;
  s_kind := fun n => match n with 1 => KInput | 2 => KLink | 3 => KOutput | 4 => KVirtual | _ => KOther end%nat;
  s_slot := fun _ => NoSlot; s_inputs := fun _ => []; s_outputs := fun _ => [];
  s_members := fun n => match n with 4 => [2; 2] | _ => [] end%nat;
  s_vfactors := fun n => match n with 4%nat => [1; 1] | _ => [] end;
  s_has_factors := fun _ => false; s_weights := fun _ => None; s_conv := fun _ => 1
|}.
Definition twice_data : data := {|
  d_cost := fun _ => 0; d_min := fun _ => Fin 0; d_max := fun _ => PInf;
  d_factors := fun _ => []; d_minvol := fun _ => 0; d_maxvol := fun _ => Fin 10; d_vol := fun _ => 10;
  d_active := fun _ => true; d_days := 1 |}.

Theorem C29_member_listed_twice_refuted : exists S d P E x, regular S /\ ~ cyclic (inner_edge S) /\
  (forall a b, In (a, b) (s_edges S) -> s_domain S a = s_domain S b) /\
  posed false S d = Ok P /\ eposed false S d = Ok E /\ feasible P x /\
  forall y, feasible E y -> ~ (forall n, ecommitted S y n == committed false S x n).
Proof.
  exists twice_sys, twice_data.
  assert (solved_check false twice_sys twice_data (fun _ => 10) = true) as Hp by (vm_compute; reflexivity).
  unfold solved_check in Hp. destruct (posed false twice_sys twice_data) as [P|e] eqn:HP; [|discriminate].
  assert (edge_check false twice_sys twice_data (fun _ => 0) = true) as Hf by (vm_compute; reflexivity).
  unfold edge_check in Hf. destruct (eposed false twice_sys twice_data) as [E|e] eqn:HE; [|discriminate].
  exists P, E, (fun _ => 10).
  assert (wf_sys twice_sys) as W by (apply plain_wf; try reflexivity; edges_NoDup).
  assert (regular twice_sys) as R by (apply regular_check_sound; [exact W|vm_compute; reflexivity]).
  split; [exact R|]. split; [apply (ranked_sound _ (fun n => n)); vm_compute; reflexivity|]. split; [reflexivity|].
  split; [reflexivity|]. split; [reflexivity|]. split.
  - apply feasible_check_sound. exact Hp.
  - intros y F H. assert (edge_solved false twice_sys twice_data y) as Hs by (exists E; split; [exact HE|exact F]).
    destruct (C21_edge_licence_limits false twice_sys twice_data y 4 R) as [B _]; auto.
    + apply one_domain_inner. reflexivity.
    + reflexivity.
    + cbn. tauto.
    + discriminate.
    + unfold virtual_flow in B. cbn [s_members s_vfactors twice_sys combine fold_left fst snd] in B.
      assert (committed false twice_sys (fun _ => 10) 2 == 10) as E2 by (vm_compute; reflexivity).
      change (- qmax (10 - 0) 0 / 1 <= 0 - 1 * ecommitted twice_sys y 2 - 1 * ecommitted twice_sys y 2) in B.
      rewrite (H 2%nat), E2 in B. vm_compute in B. apply B. reflexivity.
Qed.
Print Assumptions C29_member_listed_twice_refuted.

(** A storage whose release is joined to its own inflow: the edge solver raises GLPKInternalError. *)
Definition short_sys : sys := {|
  s_nodes := [1; 2; 3; 4]%nat;
  s_edges := [(2, 3); (4, 3)]%nat;
  s_name := fun n => n; s_fqn := fun n => n; s_domain := fun _ => 0%nat;
  s_kind := fun n => match n with 1 => KStorage | 2 | 4 => KInput | 3 => KOutput | _ => KOther end%nat;
  s_slot := fun n => match n with 2 => InputOf 1 | 3 => OutputOf 1 | _ => NoSlot end%nat;
  s_inputs := fun n => match n with 1 => [2] | _ => [] end%nat;
  s_outputs := fun n => match n with 1 => [3] | _ => [] end%nat;
  s_members := fun _ => []; s_vfactors := fun _ => []; s_has_factors := fun _ => false; s_weights := fun _ => None; s_conv := fun _ => 1
|}.

Theorem C29_short_circuit_refuted : exists S d P, comparable false S /\ ~ cyclic (inner_edge S) /\
  posed false S d = Ok P /\ eposed false S d = Err GlpkError.
Proof.
  exists short_sys, twice_data.
  destruct (posed false short_sys twice_data) as [P|e] eqn:HP; [|vm_compute in HP; discriminate].
  exists P. split; [|split; [apply (ranked_sound _ (fun n => if Nat.eqb n 3 then 9%nat else n)); vm_compute; reflexivity|split; [reflexivity|vm_compute; reflexivity]]].
  apply comparable_check_sound; [|vm_compute; reflexivity].
  constructor.
  - cbn. repeat constructor; cbn; intuition discriminate.
  - cbn. repeat constructor; cbn; intuition discriminate.
  - cbn. intros a b [H|[H|[]]]; injection H as <- <-; tauto.
  - intros n st Hn. cbn in Hn. destruct st as [|[|st]]; destruct Hn as [<-|[<-|[<-|[<-|[]]]]]; cbn; intuition discriminate.
  - intros n st Hn. cbn in Hn. destruct st as [|[|st]]; destruct Hn as [<-|[<-|[<-|[<-|[]]]]]; cbn; intuition discriminate.
  - intros n st H. destruct st as [|[|st]]; cbn in H; try contradiction. destruct H as [<-|[]]. cbn. tauto.
  - intros n st H. destruct st as [|[|st]]; cbn in H; try contradiction. destruct H as [<-|[]]. cbn. tauto.
  - intros n st H. cbn in H. do 4 (destruct n as [|n]; [destruct H as [H|H]; try discriminate H; injection H as <-; cbn; tauto|]).
    destruct H as [H|H]; discriminate H.
  - intros st. destruct st as [|[|st]]; repeat constructor; cbn; tauto.
  - intros st. destruct st as [|[|st]]; repeat constructor; cbn; tauto.
Qed.
Print Assumptions C29_short_circuit_refuted.

(** A link that nothing feeds: the route solver refuses the model, the edge solver lets it carry nothing. *)
Definition unfed_sys : sys := {|
  s_nodes := [1; 2; 3; 4]%nat;
  s_edges := [(1, 2); (2, 3); (4, 2)]%nat;
  s_name := fun n => n; s_fqn := fun n => n; s_domain := fun _ => 0%nat;
  s_kind := fun n => match n with 1 => KInput | 2 | 4 => KLink | 3 => KOutput | _ => KOther end%nat;
  s_slot := fun _ => NoSlot; s_inputs := fun _ => []; s_outputs := fun _ => [];
  s_members := fun _ => []; s_vfactors := fun _ => []; s_has_factors := fun _ => false; s_weights := fun _ => None; s_conv := fun _ => 1
|}.
Theorem C29_unfed_link_refuted : exists S d n, comparable false S /\ ~ cyclic (inner_edge S) /\
  posed false S d = Err (NotOnRoute n) /\ edge_solved false S d (fun k => nth k [3; 3; 0] 0).
Proof.
  exists unfed_sys, cycle_data, 4%nat.
  split; [|split; [apply (ranked_sound _ (fun n => match n with 4 => 0 | n => n end)%nat); vm_compute; reflexivity|split]].
  - apply comparable_check_sound; [apply plain_wf; try reflexivity; edges_NoDup|vm_compute; reflexivity].
  - vm_compute. reflexivity.
  - apply edge_check_sound. vm_compute. reflexivity.
Qed.
Print Assumptions C29_unfed_link_refuted.

(** The column of an edge between domains is in no row, yet what GLPK puts on it is committed. *)
Theorem C13_edge_between_domains_refuted : exists S d y n, comparable false S /\ ~ cyclic (inner_edge S) /\
  edge_solved false S d y /\ In n (s_nodes S) /\ s_kind S n = KOutput /\ ~ at_most (ecommitted S y n) (d_max d n).
Proof.
  exists ex_sys, ex_data, (fun k => nth k [13; 7; 7; 6; 10; 3; 100; 20] 0), 7%nat.
  split; [exact ex_comparable|]. split; [exact ex_acyclic|]. split; [apply edge_check_sound; vm_compute; reflexivity|].
  split; [cbn; tauto|]. split; [reflexivity|]. vm_compute. intros H. apply H. reflexivity.
Qed.
Print Assumptions C13_edge_between_domains_refuted.
