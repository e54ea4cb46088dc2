(** C85: catchments supply their flow, reservoirs have the cost of their side of the control curve, gauges fill their minimum residual flow first. *)
From Verif Require Import Base Paths Sorting Routes_model LP_model Sys_model RouteLP_model RouteLP_spec RouteLP_proofs RouteLP_flow RouteLP_props LP_check LP_optimal
  EdgeLP_model EdgeLP_spec EdgeLP_proofs EdgeLP_limits EdgeLP_check EdgeLP_props ControlCurves_model Connect_model Connect_spec Connect_proofs
  Piecewise_model Piecewise_spec Piecewise_proofs Piecewise_props River_model River_spec River_proofs.
Local Open Scope nat_scope.
Local Open Scope list_scope.
Local Open Scope Q_scope.

(** Whatever was given for min_flow and max_flow before, the flow of a catchment is its lower and its upper limit. *)
Theorem C85_catchment_limits : forall mn mx flow prog v par q, flow_given flow prog v -> value_now par v q ->
  get_min par (catchment mn mx flow prog) = q /\ get_max par (catchment mn mx flow prog) = q.
Proof. exact catchment_flow. Qed.
Print Assumptions C85_catchment_limits.

(** So whenever there is a solution, the catchment supplies that flow, no more and no less. *)
Theorem C85_catchment_supplies : forall triv S d x n mn mx flow prog v par q, wf_sys S -> solved triv S d x ->
  In n (s_nodes S) -> s_kind S n = KInput ->
  d_min d n = get_min par (catchment mn mx flow prog) -> d_max d n = get_max par (catchment mn mx flow prog) ->
  flow_given flow prog v -> value_now par v (Fin q) -> taken_as q (committed triv S x n).
Proof.
  intros triv S d x n mn mx flow prog v par q W [P [HP HF]] Hn Hk E1 E2 G V.
  destruct (catchment_flow mn mx flow prog v par (Fin q) G V) as [F1 F2]. rewrite F1 in E1. rewrite F2 in E2.
  pose proof (flow_row triv S d P x n W HP HF Hn ltac:(now rewrite Hk)) as B. rewrite E1, E2 in B. now apply fixed_bounds.
Qed.
Print Assumptions C85_catchment_supplies.
Theorem C85_edge_catchment_supplies : forall triv S d y n mn mx flow prog v par q, regular S -> inner_only S y -> edge_solved triv S d y ->
  In n (s_nodes S) -> s_kind S n = KInput ->
  d_min d n = get_min par (catchment mn mx flow prog) -> d_max d n = get_max par (catchment mn mx flow prog) ->
  flow_given flow prog v -> value_now par v (Fin q) -> taken_as q (ecommitted S y n).
Proof.
  intros triv S d y n mn mx flow prog v par q R I H Hn Hk E1 E2 G V.
  destruct (catchment_flow mn mx flow prog v par (Fin q) G V) as [F1 F2]. rewrite F1 in E1. rewrite F2 in E2.
  pose proof (edge_flow_row triv S d y n R I H Hn ltac:(now rewrite Hk)) as B. rewrite E1, E2 in B. now apply fixed_bounds.
Qed.
Print Assumptions C85_edge_catchment_supplies.

(** A flow of None is not a fixed flow: it leaves the catchment free. *)
Example C85_flow_none : forall par, get_min par (catchment None None (Some VNone) []) = Fin 0 /\ get_max par (catchment None None (Some VNone) []) = PInf.
Proof. intros par. split; reflexivity. Qed.

Theorem C85_no_flow_is_free : forall mn mx flow prog par,
  let free f := get_min par f = Fin 0 /\ get_max par f = PInf in
  free (catchment mn mx (Some VNone) []) /\ free (catchment mn mx flow (prog ++ [AFlow VNone])).
Proof.
  intros mn mx flow prog par. cbv zeta. split.
  - split; reflexivity.
  - unfold catchment. rewrite fold_left_app. cbn [fold_left]. split; reflexivity.
Qed.
Print Assumptions C85_no_flow_is_free.

(** With above_curve_cost, a reservoir has that cost at and above its curve (full, if there is none) and [cost] below; a Parameter for [cost] is refused. *)
Theorem C85_reservoir_cost : forall curve above cost par pc c, reservoir curve (Some above) cost = Some c ->
  exists low, (cost = Some (VNum low) \/ cost = None /\ low = 0) /\
    let position := match curve with Some (VNum q) => q | Some (VPar k) => par k | _ => 1 end in
    (position <= pc -> cost_now par pc c = above) /\ (pc < position -> cost_now par pc c = low).
Proof.
  intros curve above cost par pc c H. unfold reservoir in H.
  assert (forall low cv, c = CCurve cv [above; low] -> (number par cv <= pc -> cost_now par pc c = above) /\ (pc < number par cv -> cost_now par pc c = low)) as K.
  { intros low cv ->. cbn [cost_now]. unfold curve_value, from_end. cbn [value_loop nth length Nat.sub].
    destruct (qlebP (number par cv) pc); split; intros; try reflexivity; lra. }
  destruct cost as [[|low|k]|]; try discriminate; injection H as <-.
  - exists low. split; [now left|]. pose proof (K low _ eq_refl) as L. destruct curve as [[|q|k]|]; exact L.
  - exists 0. split; [now right|]. pose proof (K 0 _ eq_refl) as L. destruct curve as [[|q|k]|]; exact L.
Qed.
Print Assumptions C85_reservoir_cost.
Theorem C85_reservoir_plain : forall curve cost par pc, exists c, reservoir curve None cost = Some c /\
  cost_now par pc c = match cost with Some (VNum q) => q | Some (VPar k) => par k | _ => 0 end.
Proof. intros curve cost par pc. eexists. split; [reflexivity|]. destruct cost as [[|q|k]|]; reflexivity. Qed.
Print Assumptions C85_reservoir_plain.
Theorem C85_reservoir_refuses : forall curve above k, reservoir curve (Some above) (Some (VPar k)) = None.
Proof. reflexivity. Qed.
Print Assumptions C85_reservoir_refuses.

(** The attributes of a gauge read back as last assigned, and they are those of its two sublinks. *)
Theorem C85_gauge_attributes : forall mrf mrf_cost cost prog, exists a b, gauge mrf mrf_cost cost prog = [a; b] /\
  sl_max a = last_of pick_mrf (or_else (VNum (Fin 0)) mrf) prog /\ sl_max b = VNone /\
  sl_cost a = last_of pick_mrf_cost (or_else (VNum 0) mrf_cost) prog /\ sl_cost b = last_of pick_cost (or_else (VNum 0) cost) prog.
Proof. exact gauge_attrs. Qed.
Print Assumptions C85_gauge_attributes.

(** If the mrf_cost is the lower one, then in a cheapest answer the first sublink carries all that passes the gauge up to the minimum residual flow, and the
    second one only what is beyond. *)
Definition residual_first (m through : Q) (first second : Q) : Prop := first == qmin through m /\ second == qmax (through - m) 0.
Lemma residual m through first second : through == first + second -> 0 <= first -> 0 <= second -> first <= m -> (0 < second -> first == m) ->
  residual_first m through first second.
Proof. intros E A B C D. unfold residual_first, qmin, qmax. destruct (Qlt_le_dec 0 second) as [L|L]; [specialize (D L)|]; split; qifs; lra. Qed.

Theorem C85_gauge : forall triv S d x p par cpar mrf mrf_cost cost prog s0 s1 v m c0 c1, wf_sys S -> solved_optimally triv S d x ->
  gauge_in S d p par cpar (gauge mrf mrf_cost cost prog) s0 s1 -> s_conv S (p_input p) = 1 ->
  last_of pick_mrf (or_else (VNum (Fin 0)) mrf) prog = v -> value_now par v (Fin m) -> eps8 <= m ->
  value_now cpar (last_of pick_mrf_cost (or_else (VNum 0) mrf_cost) prog) c0 -> value_now cpar (last_of pick_cost (or_else (VNum 0) cost) prog) c1 ->
  c0 < c1 -> eps8 <= qabs c0 \/ eps8 <= qabs c1 ->
  committed triv S x (p_input p) == committed triv S x (p_output p) /\
  residual_first m (committed triv S x (p_output p)) (committed triv S x s0) (committed triv S x s1).
Proof.
  intros triv S d x p par cpar mrf mrf_cost cost prog s0 s1 v m c0 c1 W O [PI Lk [a [b [El [M0 [_ [K0 K1]]]]]]] Cv Ev Vm Hm V0 V1 Hc Hr.
  destruct (gauge_attrs mrf mrf_cost cost prog) as [a' [b' [E' [A1 [_ [A3 A4]]]]]]. rewrite E' in El. injection El as -> ->.
  assert (d_max d s0 = Fin m) as Dm.
  { rewrite M0. unfold sub_max. rewrite A1, Ev. destruct v; cbn in *; [contradiction|congruence|congruence]. }
  assert (forall w q, value_now cpar w q -> number cpar w = q) as Nw by (intros [|w|k] q Hw; cbn in *; [contradiction|congruence|congruence]).
  rewrite A3, (Nw _ _ V0) in K0. rewrite A4, (Nw _ _ V1) in K1.
  assert (In s0 (p_links p) /\ In s1 (p_links p)) as [I0 I1] by (rewrite Lk; cbn; tauto).
  destruct O as [P [HP [HF Op]]]. assert (solved triv S d x) as Sv by (exact (ex_intro _ P (conj HP HF))).
  assert (solved_optimally triv S d x) as O by (exact (ex_intro _ P (conj HP (conj HF Op)))).
  destruct (C28_through triv S d p x W PI ltac:(rewrite Lk; discriminate) Cv Sv) as [T1 T2].
  rewrite Lk in T1, T2. cbn [map qsum fold_right] in T1, T2. split; [rewrite T1, T2; reflexivity|].
  assert (forall s, In s (p_links p) -> In s (s_nodes S) /\ is_flow_node (s_kind S s) = true) as Nd.
  { intros s Hs. split; [apply (pi_nodes _ _ _ PI); unfold inside; tauto|].
    destruct (pi_kinds _ _ _ PI) as [_ [_ [_ Kd]]]. now rewrite (Kd s Hs). }
  destruct (Nd s0 I0) as [N0 F0], (Nd s1 I1) as [N1 F1].
  destruct (C13_flow_in_bounds triv S d x s0 W Sv N0 F0) as [P0 _]. destruct (C13_flow_in_bounds triv S d x s1 W Sv N1 F1) as [P1 _].
  apply residual; auto.
  - rewrite T1. ring.
  - pose proof (flow_row triv S d P x s0 W HP HF N0 F0) as B. rewrite Dm, (pi_min _ _ _ PI s0 I0) in B. now apply upper_bound.
  - intros Hp. destruct (C28_order triv S d p x s0 s1 W PI O I0 I1) as [m' [Em Ef]]; auto; [now rewrite K0, K1|now rewrite K0, K1|].
    rewrite Dm in Em. injection Em as <-. destruct Ef as [Ef|[_ Ef]]; [exact Ef|]. unfold qabs in Ef. qif_in Ef; unfold eps8 in *; lra.
Qed.
Print Assumptions C85_gauge.

(** The model of tests/test_river.py: a catchment of 10 (node 1), a gauge with a minimum residual flow of 5 (node 2) and a demand (node 8) with a benefit of 10. *)
Definition river_par (k : nat) : ext := Fin 0.
Definition river_cpar (k : nat) : Q := 0.
Definition river_gauge : list sublink := gauge (Some (VNum (Fin 5))) (Some (VNum (- (1)))) None [].
Definition river_catchment : flows := catchment (Some (VNum (Fin 3))) None (Some (VNum (Fin 10))) [].
Definition river_data : data := {|
  d_cost := fun n => match n with 6%nat => - (1) | 8%nat => - (10) | _ => 0 end;
  d_min := fun n => match n with 1%nat => get_min river_par river_catchment | _ => Fin 0 end;
  d_max := fun n => match n with 1%nat => get_max river_par river_catchment | 6%nat => Fin 5 | 8%nat => Fin 10 | _ => PInf end;
  d_factors := fun _ => []; d_minvol := fun _ => 0; d_maxvol := fun _ => Fin 0; d_vol := fun _ => 0; d_active := fun _ => true; d_days := 1 |}.
Lemma river_gauge_in : gauge_in piece_sys river_data ex_piece river_par river_cpar river_gauge 6%nat 7%nat.
Proof.
  constructor; [|reflexivity|].
  - destruct (ex_piece_in 0 0) as [N A K Sl D Ed F M Cn Co]. constructor; auto; cbn; intuition (subst; reflexivity).
  - eexists. eexists. split; [reflexivity|]. repeat split; reflexivity.
Qed.
Definition river_answer (c : nat) : Q := nth c [10; 10; 5; 5] 0.
Example river_solved : solved_optimally false piece_sys river_data river_answer.
Proof. apply (solved_optimally_check_sound _ _ _ _ [0; 0; 0; 0; 0; 0; -(1); 0; -(10)]). vm_compute. reflexivity. Qed.
Example C85_example : taken_as 10 (committed false piece_sys river_answer 1%nat) /\
  residual_first 5 (committed false piece_sys river_answer 3%nat) (committed false piece_sys river_answer 6%nat) (committed false piece_sys river_answer 7%nat).
Proof.
  split.
  - destruct river_solved as [P [HP [HF _]]].
    refine (C85_catchment_supplies false piece_sys river_data river_answer 1%nat (Some (VNum (Fin 3))) None (Some (VNum (Fin 10))) [] (VNum (Fin 10)) river_par 10
              Piecewise_props.ex_wf (ex_intro _ P (conj HP HF)) _ _ _ _ _ _); try reflexivity; [cbn; tauto|].
    right. split; [reflexivity|]. now left.
  - refine (proj2 (C85_gauge false piece_sys river_data river_answer ex_piece river_par river_cpar (Some (VNum (Fin 5))) (Some (VNum (- (1)))) None [] 6%nat 7%nat
              (VNum (Fin 5)) 5 (- (1)) 0 Piecewise_props.ex_wf river_solved river_gauge_in _ _ _ _ _ _ _ _)); try reflexivity; try (vm_compute; congruence).
    left. vm_compute. congruence.
Qed.
Example C85_reservoir_example : exists c, reservoir (Some (VNum (8 # 10))) (Some 0) (Some (VNum (- (15)))) = Some c /\
  cost_now river_cpar (9 # 10) c = 0 /\ cost_now river_cpar (8 # 10) c = 0 /\ cost_now river_cpar (7 # 10) c = - (15).
Proof. eexists. repeat split; reflexivity. Qed.
