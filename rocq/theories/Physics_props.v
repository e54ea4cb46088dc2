(** Properties C49, C50: hydropower and the Keating aquifer. *)
From Verif Require Import Base LP_model Physics_model Physics_proofs.
Local Open Scope Q_scope.

(** ** C49.  The flow from the inverse calculation produces the power. *)
Theorem C49_inverse : forall t power water turbine_elev, positive_turbine t -> turbine_elev < water ->
  exists flow, inverse_hydropower t power water turbine_elev = Fin flow /\ hydropower t flow water turbine_elev == power.
Proof.
  intros t power w e T H. pose proof (divisor_pos t (w - e) T ltac:(lra)) as D.
  unfold inverse_hydropower. cbv zeta. fold (divisor t (if qltb (w - e) 0 then 0 else w - e)).
  destruct (qltbP (w - e) 0) as [G|G]; [lra|]. destruct (qeqbP (divisor t (w - e)) 0) as [E|E]; [lra|].
  eexists. split; [reflexivity|]. rewrite hydropower_divisor. destruct (qltbP (w - e) 0) as [G'|G']; [lra|]. field. lra.
Qed.
Print Assumptions C49_inverse.

(** ... and is the only flow that does. *)
Theorem C49_inverse_unique : forall t flow water turbine_elev v, positive_turbine t -> turbine_elev < water ->
  inverse_hydropower t (hydropower t flow water turbine_elev) water turbine_elev = Fin v -> v == flow.
Proof.
  intros t flow w e v T H Hv. pose proof (divisor_pos t (w - e) T ltac:(lra)) as D.
  destruct (C49_inverse t (hydropower t flow w e) w e T H) as [f [E F]]. rewrite E in Hv. injection Hv as <-.
  rewrite !hydropower_divisor in F. destruct (qltbP (w - e) 0) as [G|G]; [lra|].
  apply (Qmult_inj_r _ _ (divisor t (w - e))); [lra|exact F].
Qed.
Print Assumptions C49_inverse_unique.

(** No head: no flow can produce power, the inverse is infinite. *)
Theorem C49_no_head : forall t power water turbine_elev, water <= turbine_elev ->
  inverse_hydropower t power water turbine_elev = PInf /\ (forall flow, hydropower t flow water turbine_elev == 0).
Proof.
  intros t power w e H.
  assert ((if qltb (w - e) 0 then 0 else w - e) == 0) as Z by (destruct (qltbP (w - e) 0); lra). split.
  - unfold inverse_hydropower. cbv zeta. fold (divisor t (if qltb (w - e) 0 then 0 else w - e)).
    assert (divisor t (if qltb (w - e) 0 then 0 else w - e) == 0) as E by (rewrite (divisor_Proper t _ _ Z); unfold divisor; ring).
    destruct (qeqbP (divisor t (if qltb (w - e) 0 then 0 else w - e)) 0); [reflexivity|contradiction].
  - intros flow. rewrite hydropower_divisor, (divisor_Proper t _ _ Z). unfold divisor. ring.
Qed.
Print Assumptions C49_no_head.

(** The target parameter: at or above the minimum head the flow is between the limits (the minimum wins), and without a
    limit in force the recorder of the same turbine reports exactly the target. *)
Theorem C49_target_limits : forall t target water elev min_head max_flow min_flow q head,
  target_value t target water elev min_head max_flow min_flow = Some q -> working_head water elev = Some head -> min_head <= head ->
  (forall m, min_flow = Some m -> match q with Fin v => m <= v | PInf => True | NInf => False end) /\
  (forall m, max_flow = Some m -> (forall n, min_flow = Some n -> n <= m) -> match q with Fin v => v <= m | _ => False end) /\
  match q with Fin v => 0 <= v | PInf => True | NInf => False end.
Proof.
  intros t target water elev min_head max_flow min_flow q head H W M. unfold target_value in H. rewrite W in H.
  destruct (qltbP head min_head) as [G|G]; [lra|]. cbv zeta in H.
  assert (inverse_hydropower t target head 0 <> NInf) as N.
  { unfold inverse_hydropower. cbv zeta. destruct (qeqb _ 0); discriminate. }
  set (i := inverse_hydropower t target head 0) in *. clearbody i.
  set (j := match max_flow with Some m => emin m i | None => i end) in *.
  assert (forall m, max_flow = Some m -> match j with Fin v => v <= m | _ => False end) as Hj.
  { intros m ->. subst j. destruct i; cbn [emin]; [congruence|apply qmin_l|apply Qle_refl]. }
  assert (j <> NInf) as Nj by (subst j; destruct max_flow; destruct i; cbn; congruence). clearbody j.
  set (k := match min_flow with Some m => emax m j | None => j end) in *.
  assert (k = q /\ match q with Fin v => 0 <= v | PInf => True | NInf => False end) as [<- P].
  { destruct k as [|v|]; [discriminate| |injection H as <-; split; [reflexivity|exact I]].
    destruct (qlebP 0 v); [|discriminate]. injection H as <-. split; [reflexivity|assumption]. }
  split; [|split; [|exact P]].
  - intros m ->. subst k. destruct j; cbn [emax]; [congruence|apply qmax_l|exact I].
  - intros m E Hn. specialize (Hj m E). subst k. destruct min_flow as [n|]; [|exact Hj]. specialize (Hn n eq_refl).
    destruct j; cbn [emax]; [destruct Hj|apply qmax_lub; assumption|destruct Hj].
Qed.
Print Assumptions C49_target_limits.

Theorem C49_target_met : forall t target water elev min_head q head, positive_turbine t ->
  target_value t target water elev min_head None None = Some (Fin q) -> working_head water elev = Some head -> 0 < head -> min_head <= head ->
  exists p, recorded_power t q water elev = Some p /\ p == target.
Proof.
  intros t target water elev min_head q head T H W Hh M. unfold target_value in H. unfold recorded_power. rewrite W in *.
  destruct (qltbP head min_head) as [G|G]; [lra|]. cbv zeta in H. rewrite (inverse_value t target head T Hh) in H.
  destruct (qlebP 0 (target / divisor t (head - 0))); [|discriminate]. injection H as <-.
  eexists. split; [reflexivity|]. rewrite hydropower_divisor. destruct (qltbP (head - 0) 0) as [G'|G']; [lra|].
  pose proof (divisor_pos t (head - 0) T ltac:(lra)). field. lra.
Qed.
Print Assumptions C49_target_met.

(** With a limit in force: a maximum keeps the power at or below the target, a minimum alone at or above it. *)
Theorem C49_target_bounded : forall t target water elev min_head max_flow min_flow q head p, positive_turbine t ->
  target_value t target water elev min_head max_flow min_flow = Some (Fin q) ->
  working_head water elev = Some head -> 0 < head -> min_head <= head -> recorded_power t q water elev = Some p ->
  (min_flow = None -> p <= target) /\ (max_flow = None -> target <= p).
Proof.
  intros t target water elev min_head max_flow min_flow q head p T H W Hh M R. unfold target_value in H. unfold recorded_power in R.
  rewrite W in *. injection R as <-. destruct (qltbP head min_head) as [G|G]; [lra|]. cbv zeta in H. rewrite (inverse_value t target head T Hh) in H.
  rewrite hydropower_divisor. destruct (qltbP (head - 0) 0) as [G'|G']; [lra|].
  pose proof (divisor_pos t (head - 0) T ltac:(lra)) as D. set (d := divisor t (head - 0)) in *. clearbody d.
  assert (target / d * d == target) as E by (field; lra).
  split; intros ->.
  - assert (q <= target / d) as B.
    { destruct max_flow as [m|]; cbn [emin] in H; match type of H with (if qleb 0 ?u then _ else _) = _ => destruct (qleb 0 u); [|discriminate] end;
        injection H as <-; [apply qmin_r|apply Qle_refl]. }
    rewrite <- E. apply Qmult_le_compat_r; lra.
  - assert (target / d <= q) as B.
    { destruct min_flow as [m|]; cbn [emax] in H; match type of H with (if qleb 0 ?u then _ else _) = _ => destruct (qleb 0 u); [|discriminate] end;
        injection H as <-; [apply qmax_r|apply Qle_refl]. }
    rewrite <- E at 1. apply Qmult_le_compat_r; lra.
Qed.
Print Assumptions C49_target_bounded.

(** Below the minimum head nothing is asked for. *)
Theorem C49_minimum_head : forall t target water elev min_head max_flow min_flow head,
  working_head water elev = Some head -> head < min_head ->
  target_value t target water elev min_head max_flow min_flow = Some (Fin 0).
Proof. intros t target water elev min_head max_flow min_flow head W H. unfold target_value. rewrite W. destruct (qltbP head min_head); [reflexivity|lra]. Qed.
Print Assumptions C49_minimum_head.

(** Total energy is the sum of power times length. *)
Theorem C49_total_energy : forall t elev steps total, total_energy t (Some elev) 0 steps = Some total ->
  total == qsum (map (fun s => match s with (flow, water, days) => t_density t * (flow * t_flow_conv t) * gravity *
                    qmax (match water with Some w => w - elev | None => elev end) 0 * t_efficiency t * t_energy_conv t * days end) steps).
Proof.
  intros t elev steps total H.
  enough (forall acc, total_energy t (Some elev) acc steps = Some total -> total == acc + qsum (map (fun s => match s with (flow, water, days) => t_density t * (flow * t_flow_conv t) * gravity *
                    qmax (match water with Some w => w - elev | None => elev end) 0 * t_efficiency t * t_energy_conv t * days end) steps)) as K
    by (rewrite (K 0 H); ring).
  clear H. induction steps as [|[[flow water] days] r IH]; intros acc H; cbn [total_energy map] in *.
  - injection H as <-. cbn. ring.
  - rewrite qsum_cons. destruct water as [w|]; cbn [recorded_power working_head] in H; unfold recorded_power in H; cbn [working_head] in H;
      rewrite (IH _ H), hydropower_divisor; (match goal with |- context [divisor t (if qltb (?a - 0) 0 then 0 else ?a - 0)] =>
        rewrite (divisor_Proper t _ a (head_zero a (qmax_r _ _))) end); unfold divisor; ring.
Qed.
Print Assumptions C49_total_energy.

Example C49_example :
  let t := {| t_efficiency := 9 # 10; t_density := 1000; t_flow_conv := 1000; t_energy_conv := 1 # 1000000 |} in
  positive_turbine t /\ match target_value t 50 (Some 25) (Some 5) 2 (Some 100) (Some 0) with Some (Fin q) => Qred q = 2500 # 8829 | _ => False end.
Proof. cbv zeta. split; [repeat split|vm_compute; reflexivity]. Qed.

(** ** C50. *)
Theorem C50_zero_below : forall C levels Ts level, (forall l, In l levels -> level <= l) -> keating C levels Ts level == 0.
Proof. exact keating_zero. Qed.
Print Assumptions C50_zero_below.

Theorem C50_non_negative : forall C levels Ts level, 0 <= C -> (forall T, In T Ts -> 0 <= T) -> 0 <= keating C levels Ts level.
Proof.
  intros C levels Ts level HC P.
  assert (exists low, low <= level /\ forall l, In l levels -> low <= l) as [low [L1 L2]].
  { clear. induction levels as [|l r [low [A B]]]; [exists level; split; [lra|intros l []]|].
    exists (qmin low l). split; [pose proof (qmin_l low l); lra|]. intros x [<-|I]; [apply qmin_r|].
    pose proof (qmin_l low l). specialize (B x I). lra. }
  pose proof (keating_zero C levels Ts low L2) as Z. destruct (keating_mono C HC levels Ts low level P L1) as [M _]. lra.
Qed.
Print Assumptions C50_non_negative.

(** Non-decreasing, and no steeper than twice the coefficient times the sum of the transmissivities. *)
Theorem C50_non_decreasing_lipschitz : forall C levels Ts a b, 0 <= C -> (forall T, In T Ts -> 0 <= T) -> length levels = length Ts -> a <= b ->
  0 <= keating C levels Ts b - keating C levels Ts a <= 2 * C * qsum Ts * (b - a).
Proof.
  intros C levels Ts a b HC P L H. pose proof (keating_mono C HC levels Ts a b P H) as K. rewrite L, firstn_all in K. exact K.
Qed.
Print Assumptions C50_non_decreasing_lipschitz.

(** The formula: each stream level below the groundwater level contributes in proportion to the difference. *)
Theorem C50_formula : forall C levels Ts level, length levels = length Ts ->
  keating C levels Ts level == qsum (map (fun lt => 2 * snd lt * C * qmax 0 (level - fst lt)) (combine levels Ts)).
Proof.
  intros C. induction levels as [|l r IH]; intros [|T Tr] level H; try discriminate; [reflexivity|].
  rewrite keating_cons. cbn [combine map]. rewrite qsum_cons. cbn [fst snd]. rewrite IH by (injection H as H; exact H). reflexivity.
Qed.
Print Assumptions C50_formula.

Example C50_example : map (fun x => Qred (keating 2 [10; 20] [3; 5] x)) [5; 10; 15; 25] = [0; 0; 60; 280].
Proof. reflexivity. Qed.
