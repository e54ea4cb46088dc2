(** Virtual storages: C21, C22. *)
From Verif Require Import Base Ring Paths Sorting Routes_model LP_model LP_check Sys_model RouteLP_model RouteLP_spec
  RouteLP_proofs RouteLP_flow RouteLP_props Storage_model Sim_model Storage_spec Storage_proofs Storage_props
  Virtual_model Virtual_spec Virtual_proofs.
Open Scope Q_scope.

(** C21.  Over any number of solved timesteps (active or not) and resets the volume stays within constant
    bounds. *)
Theorem C21_never_overdrawn : forall tol triv S v mn m,
  wf_sys S -> licence_ok S v -> 0 <= tol ->
  forall a l b, licence_run tol triv S v (fun w => mn <= w <= m) a l b ->
  (forall d x, In (d, x) l -> d_minvol d v = mn /\ d_maxvol d v = Fin m /\ tol * d_days d < eps6) ->
  mn <= a <= m -> mn <= b <= m.
Proof. exact licence_run_in. Qed.
Print Assumptions C21_never_overdrawn.

(** One timestep: the volume falls by what the nodes used, exactly outside the snapping zones ... *)
Theorem C21_charged_exactly : forall S d fl v, s_kind S v = KVirtual -> d_active d v = true ->
  eps6 <= qabs (d_vol d v - charged S d fl v - d_minvol d v) ->
  (forall m, d_maxvol d v = Fin m -> eps6 <= qabs (d_vol d v - charged S d fl v - m)) ->
  vol_after S d fl v == d_vol d v - charged S d fl v.
Proof. exact charged_exact. Qed.
Print Assumptions C21_charged_exactly.

(** ... and within 1e-6 in any case; an inactive store keeps its volume. *)
Theorem C21_charged : forall S d fl v, s_kind S v = KVirtual ->
  (d_active d v = true -> (forall m, d_maxvol d v = Fin m -> eps6 <= m - d_minvol d v) ->
     - eps6 < vol_after S d fl v - (d_vol d v - charged S d fl v) < eps6) /\
  (d_active d v = false -> vol_after S d fl v = d_vol d v).
Proof.
  intros S d fl v Hk. split; [intros Ha Hw; now apply charged_step|]. intros Ha. unfold vol_after. now rewrite Hk, Ha.
Qed.
Print Assumptions C21_charged.

(** Between two resets no more is charged than the volume that was available. *)
Theorem C21_period_allowance : forall tol triv S v mn m,
  wf_sys S -> licence_ok S v -> 0 <= tol -> eps6 <= m - mn ->
  forall a l b, volume_run tol triv S v a l b ->
  (forall d x, In (d, x) l ->
     d_minvol d v = mn /\ d_maxvol d v = Fin m /\ tol * d_days d < eps6 /\ d_active d v = true) ->
  mn <= a <= m ->
  charges triv S v l <= a - mn + eps6 * inject_Z (Z.of_nat (length l)).
Proof.
  intros tol triv S v mn m W L Ht Hw a l b R Hc Ha.
  pose proof (charges_run tol triv S v mn m (proj1 (proj2 L)) Hw a l b R) as H. cbn zeta in H.
  assert (mn <= b <= m) as Hb.
  { eapply (licence_run_in tol triv S v mn m W L Ht a l b).
    - clear - R. induction R; [constructor|constructor; assumption].
    - intros d x Hi. destruct (Hc d x Hi) as [? [? [? ?]]]. auto.
    - exact Ha. }
  specialize (H (fun d x Hi => match Hc d x Hi with conj e1 (conj e2 (conj _ e4)) => conj e1 (conj e2 e4) end)). lra.
Qed.
Print Assumptions C21_period_allowance.

(** C22.  Any window of at most N timesteps in any run: the cap holds up to 1e-6 for each timestep that
    has passed. *)
Theorem C22_window_cap_partial : forall triv S n k m i r0 a w b r,
  wf_sys S -> licence_ok S n -> (forall f, In f (s_vfactors S n) -> 0 <= f) ->
  (i_max i = MaxNumber m \/ i_max i = MaxConstant m) -> ~ m == 0 -> (2 <= k)%nat ->
  rolling_reset i k = Some r0 -> 0 <= r_vol r0 <= m ->
  rolling_run triv S n k m r0 (a ++ w ++ b) r -> (length w <= k)%nat ->
  charges triv S n w <= m + eps6 * inject_Z (Z.of_nat (length (a ++ w))).
Proof.
  intros. eapply window_cap; eauto; [|left; reflexivity]. apply Qlt_le_weak, eps6_pos.
Qed.
Print Assumptions C22_window_cap_partial.

(** Exactly, as long as no volume is snapped up to the maximum. *)
Theorem C22_window_cap_exact_partial : forall triv S n k m i r0 a w b r,
  wf_sys S -> licence_ok S n -> (forall f, In f (s_vfactors S n) -> 0 <= f) ->
  (i_max i = MaxNumber m \/ i_max i = MaxConstant m) -> ~ m == 0 -> (2 <= k)%nat ->
  rolling_reset i k = Some r0 -> 0 <= r_vol r0 <= m ->
  rolling_run triv S n k m r0 (a ++ w ++ b) r -> (length w <= k)%nat ->
  unsnapped_run S triv n k m r0 (a ++ w ++ b) ->
  charges triv S n w <= m.
Proof.
  intros triv S n k m i r0 a w b r W L Hf Hm Hm0 Hk HR Hv R Hl Hu.
  pose proof (window_cap triv S n k m 0 i r0 a w b r W L ltac:(lra) Hf Hm Hm0 Hk HR Hv R Hl (or_intror Hu)) as H.
  assert (0 * inject_Z (Z.of_nat (length (a ++ w))) == 0) as E by ring. lra.
Qed.
Print Assumptions C22_window_cap_exact_partial.

(** Whatever flows and returns, the volume of a rolling licence is within its bounds after every timestep. *)
Theorem C22_volume_in_bounds : forall k r flow days m mn, mn <= m ->
  mn <= r_vol (rolling_after k true r flow days (Fin m) mn) <= m.
Proof.
  intros k r flow days m mn Hm. cbn [rolling_after r_vol]. unfold volume_after.
  set (v := r_vol r + flow * days + nth (r_ptr r) (r_mem r) 0).
  assert (mn <= clamp v (Fin m) mn <= m) as C.
  { unfold clamp. assert (mn <= qmax mn v) by (unfold qmax; qif; lra). unfold qmin. qif; lra. }
  set (c := clamp v (Fin m) mn) in *. clearbody c. unfold snap. qifs; lra.
Qed.
Print Assumptions C22_volume_in_bounds.

(** The number of timesteps of a licence given in days. *)
Theorem C22_timesteps : forall days ts delta k, rolling_timesteps days ts delta = Some k ->
  (2 <= k)%nat /\ (forall d, days = Some d -> (0 < d)%Z -> Z.of_nat k = (d / delta)%Z).
Proof.
  intros days ts delta k H. unfold rolling_timesteps in H.
  destruct days as [d|].
  - destruct (Z.ltb_spec 0 d) as [Hd|Hd].
    + destruct (Z.ltb_spec (d / delta) 2); [discriminate|]. injection H as <-. split; [lia|]. intros d' E _. injection E as <-. rewrite Z2Nat.id; lia.
    + destruct (Z.ltb_spec ts 2); [discriminate|]. injection H as <-. split; [lia|]. intros d' E Hd'. injection E as <-. lia.
  - destruct (Z.ltb_spec ts 2); [discriminate|]. injection H as <-. split; [lia|discriminate].
Qed.
Print Assumptions C22_timesteps.

(** ** Examples *)
(** Input 1 -> link 2 -> output 3 and input 4 -> output 5; licence 6 on nodes 2 and 4 with factors 1 and 2. *)
Definition lic_sys (members : list nat) (factors : list Q) : sys := {|
  s_nodes := [1; 2; 3; 4; 5; 6]%nat;
  s_edges := [(1, 2); (2, 3); (4, 5)]%nat;
  s_name := fun n => n; s_fqn := fun n => n; s_domain := fun _ => 0%nat;
  s_kind := fun n => match n with 1 | 4 => KInput | 2 => KLink | 3 | 5 => KOutput | 6 => KVirtual | _ => KOther end%nat;
  s_slot := fun _ => NoSlot; s_inputs := fun _ => []; s_outputs := fun _ => [];
  s_members := fun n => match n with 6 => members | _ => [] end%nat;
  s_vfactors := fun _ => factors; s_has_factors := fun _ => false; s_weights := fun _ => None; s_conv := fun _ => 1
|}.

Definition lic_data (m vol days : Q) : data := {|
  d_cost := fun _ => 0; d_min := fun _ => Fin 0; d_max := fun _ => Fin 50;
  d_factors := fun _ => []; d_minvol := fun _ => 0; d_maxvol := fun _ => Fin m; d_vol := fun _ => vol;
  d_active := fun _ => true; d_days := days |}.

Definition amounts (l : list Q) : nat -> Q := fun c => nth c l 0.

Lemma lic_wf ms fs : wf_sys (lic_sys ms fs).
Proof.
  apply wf_no_storage; try reflexivity.
  - cbn. repeat constructor; cbn; intuition discriminate.
  - cbn. repeat constructor; cbn; intuition discriminate.
  - cbn. intros a b H. repeat (destruct H as [H|H]; [injection H as <- <-; cbn; tauto|]). contradiction.
Qed.

Example lic_ok : licence_ok (lic_sys [2; 4]%nat [1; 2]) 6.
Proof.
  assert (terminals_clean (lic_sys [2; 4]%nat [1; 2])) as T.
  { intros a b H _. cbn in H. repeat (destruct H as [H|H]; [injection H as <- <-; cbn; split; discriminate|]). contradiction. }
  split; [cbn; tauto|]. split; [reflexivity|]. split; [cbn; repeat constructor; cbn; intuition discriminate|].
  split; [reflexivity|]. intros m Hm. cbn in Hm. destruct Hm as [<-|[<-|[]]]; (split; [cbn; tauto|split; [reflexivity|apply clean_all; exact T]]).
Qed.

(** 100 available; two days at 3 and 4 (charged 2 * (3 + 8) = 22), then a reset to 100. *)
Example C21_example : exists l,
  licence_run (1 # 10000000) false (lic_sys [2; 4]%nat [1; 2]) 6 (fun w => 0 <= w <= 100) 100 l 60 /\ length l = 2%nat.
Proof.
  assert (0 <= 1 # 10000000) as Ht by (vm_compute; discriminate).
  exists [(lic_data 100 100 2, amounts [3; 4]); (lic_data 100 100 4, amounts [2; 4])]. split; [|reflexivity].
  apply lr_step; [reflexivity|reflexivity|apply solved_solved_within; [exact Ht|apply solved_check_sound; vm_compute; reflexivity]|].
  replace (vol_after _ _ _ _) with 78 by (vm_compute; reflexivity).
  apply lr_reset with (w := 100); [lra|].
  apply lr_step; [reflexivity|reflexivity|apply solved_solved_within; [exact Ht|apply solved_check_sound; vm_compute; reflexivity]|].
  replace (vol_after _ _ _ _) with 60 by (vm_compute; reflexivity). constructor.
Qed.

Example C21_example_charged : charged (lic_sys [2; 4]%nat [1; 2]) (lic_data 100 100 2) (committed false (lic_sys [2; 4]%nat [1; 2]) (amounts [3; 4])) 6 == 22.
Proof. vm_compute. reflexivity. Qed.

(** A rolling licence of 3 timesteps with 30 available and 15 to start with: 7.5 return in each of the first two
    timesteps. *)
Definition roll_sys := lic_sys [2; 4]%nat [1; 2].
Definition roll (k : nat) (m : Q) (S : sys) (r : rolling) (x : nat -> Q) : rolling :=
  rolling_after k true r (virtual_flow S (committed false S x) 6) 1 (Fin m) 0.
Definition roll_r0 : rolling := {| r_vol := 15; r_mem := [15 # 2; 15 # 2]; r_ptr := 0 |}.
Definition roll_xs : list (nat -> Q) := [amounts [5; 4]; amounts [0; 1]; amounts [15; 0]].
Fixpoint rolls (k : nat) (m : Q) (S : sys) (r : rolling) (xs : list (nat -> Q)) : list (data * (nat -> Q)) :=
  match xs with
  | [] => []
  | x :: xs => (lic_data m (r_vol r) 1, x) :: rolls k m S (roll k m S r x) xs
  end.

Lemma rolls_run k m ms fs xs : forall r,
  forallb (fun dx => solved_check false (lic_sys ms fs) (fst dx) (snd dx)) (rolls k m (lic_sys ms fs) r xs) = true ->
  rolling_run false (lic_sys ms fs) 6 k m r (rolls k m (lic_sys ms fs) r xs) (fold_left (roll k m (lic_sys ms fs)) xs r).
Proof.
  induction xs as [|x xs IH]; intros r H; cbn [rolls fold_left] in *; [constructor|].
  cbn [forallb fst snd] in H. apply andb_true_iff in H as [H1 H2].
  apply rr_step; try reflexivity; [now apply solved_check_sound|]. now apply IH.
Qed.

Example C22_example :
  (exists r0, rolling_reset {| i_volume := Some 15; i_pc := None; i_max := MaxNumber 30 |} 3 = Some r0 /\
     r_vol r0 = 15 /\ Forall (fun u => u == 15 # 2) (r_mem r0)) /\
  rolling_run false roll_sys 6 3 30 roll_r0 (rolls 3 30 roll_sys roll_r0 roll_xs) (fold_left (roll 3 30 roll_sys) roll_xs roll_r0) /\
  charges false roll_sys 6 (rolls 3 30 roll_sys roll_r0 roll_xs) == 30.
Proof.
  split; [|split].
  - eexists. split; [reflexivity|]. split; [reflexivity|]. repeat constructor.
  - apply rolls_run. vm_compute. reflexivity.
  - vm_compute. reflexivity.
Qed.

(** ** Counterexamples *)
(** A node listed twice: the row of the solver counts it once, `after` counts it twice. *)
Theorem C21_node_listed_twice_refuted : exists S d x v, wf_sys S /\ solved false S d x /\ s_kind S v = KVirtual /\
  (forall m, In m (s_members S v) -> In m (s_nodes S) /\ s_kind S m = KLink) /\ d_active d v = true /\
  0 <= d_vol d v <= 100 /\ d_minvol d v = 0 /\ d_maxvol d v = Fin 100 /\
  vol_after S d (committed false S x) v < 0.
Proof.
  exists (lic_sys [2; 2]%nat [1; 1]), (lic_data 100 10 1), (amounts [10; 0]), 6%nat. split; [apply lic_wf|].
  split; [apply solved_check_sound; vm_compute; reflexivity|]. split; [reflexivity|].
  split; [intros m [<-|[<-|[]]]; cbn; tauto|]. split; [reflexivity|]. split; [cbn; lra|]. split; [reflexivity|]. split; [reflexivity|].
  vm_compute. reflexivity.
Qed.
Print Assumptions C21_node_listed_twice_refuted.

(** A storage (4) as member besides an input: it is on no route, so the solver does not limit it.  (A licence over nothing but
    storages has no entries in its row, and is refused.) *)
Definition stored_sys : sys := {|
  s_nodes := [1; 2; 3; 4; 5; 6]%nat;
  s_edges := [(1, 2); (3, 5)]%nat;
  s_name := fun n => n; s_fqn := fun n => n; s_domain := fun _ => 0%nat;
  s_kind := fun n => match n with 1 | 3 => KInput | 2 | 5 => KOutput | 4 => KStorage | 6 => KVirtual | _ => KOther end%nat;
  s_slot := fun n => match n with 2 => OutputOf 4 | 3 => InputOf 4 | _ => NoSlot end%nat;
  s_inputs := fun n => match n with 4 => [3] | _ => [] end%nat;
  s_outputs := fun n => match n with 4 => [2] | _ => [] end%nat;
  s_members := fun n => match n with 6 => [4; 1] | _ => [] end%nat;
  s_vfactors := fun _ => [1; 1]; s_has_factors := fun _ => false; s_weights := fun _ => None; s_conv := fun _ => 1
|}.

Lemma stored_wf : wf_sys stored_sys.
Proof.
  constructor; try exact (fun _ => NoDup_nil _).
  - cbn. repeat constructor; cbn; intuition discriminate.
  - cbn. repeat constructor; cbn; intuition discriminate.
  - cbn. intros a b H.
    repeat (destruct H as [H|H]; [injection H as <- <-; split; cbn; tauto|]). contradiction.
  - intros n st _. cbn. destruct st as [|[|[|[|[|st]]]]];
    do 4 (destruct n as [|n]; [split; cbn; intuition (try discriminate)|]); split; cbn; intuition discriminate.
  - intros n st _. cbn. destruct st as [|[|[|[|[|st]]]]];
    do 4 (destruct n as [|n]; [split; cbn; intuition (try discriminate)|]); split; cbn; intuition discriminate.
  - intros n st H. destruct st as [|[|[|[|[|st]]]]]; cbn in H; try contradiction. destruct H as [<-|[]]. cbn. tauto.
  - intros n st H. destruct st as [|[|[|[|[|st]]]]]; cbn in H; try contradiction. destruct H as [<-|[]]. cbn. tauto.
  - intros n st H. cbn in H. do 4 (destruct n as [|n]; [destruct H as [H|H]; try discriminate H; injection H as <-; cbn; tauto|]).
    destruct H as [H|H]; discriminate H.
  - intros st. destruct st as [|[|[|[|[|st]]]]]; repeat constructor; cbn; tauto.
  - intros st. destruct st as [|[|[|[|[|st]]]]]; repeat constructor; cbn; tauto.
Qed.

Theorem C21_storage_member_refuted : exists S d x v, wf_sys S /\ solved false S d x /\ s_kind S v = KVirtual /\
  NoDup (s_members S v) /\ (forall m, In m (s_members S v) -> In m (s_nodes S)) /\ d_active d v = true /\
  0 <= d_vol d v <= 100 /\ d_minvol d v = 0 /\ d_maxvol d v = Fin 100 /\
  vol_after S d (committed false S x) v < 0.
Proof.
  exists stored_sys, (lic_data 100 10 1), (amounts [10; 0]), 6%nat. split; [apply stored_wf|].
  split; [apply solved_check_sound; vm_compute; reflexivity|]. split; [reflexivity|].
  split; [repeat constructor; cbn; intuition discriminate|].
  split; [intros m [<-|[<-|[]]]; cbn; tauto|]. split; [reflexivity|]. split; [cbn; lra|]. split; [reflexivity|]. split; [reflexivity|].
  vm_compute. reflexivity.
Qed.
Print Assumptions C21_storage_member_refuted.

(** C22: using 0.9e-6 more in each timestep keeps the volume snapped to the maximum: after 12 timesteps a
    licence of 1e-5 per 2 timesteps gives 2.07e-5. *)
Definition drip : list (nat -> Q) := map (fun j => amounts [Z.of_nat j # 10000000]) [9; 18; 27; 36; 45; 54; 63; 72; 81; 90; 99]%nat.

Theorem C22_snapping_refuted : exists S n k m i r0 a w r,
  wf_sys S /\ (2 <= k)%nat /\ (forall f, In f (s_vfactors S n) -> 0 <= f) /\ i_max i = MaxNumber m /\
  rolling_reset i k = Some r0 /\ 0 <= r_vol r0 <= m /\
  rolling_run false S n k m r0 (a ++ w) r /\ (length w <= k)%nat /\
  m + m * (8 # 10) < charges false S n w.
Proof.
  exists (lic_sys [2]%nat [1]), 6%nat, 2%nat, (1 # 100000), {| i_volume := Some (1 # 100000); i_pc := None; i_max := MaxNumber (1 # 100000) |}.
  set (r0 := {| r_vol := 1 # 100000; r_mem := repeat (((1 # 100000) / ((1 # 100000) / (1 # 100000)) - (1 # 100000)) / inject_Z (Z.of_nat 2 - 1)) 1; r_ptr := 0 |}).
  set (l := rolls 2 (1 # 100000) (lic_sys [2]%nat [1]) r0 drip).
  exists r0, (firstn 9 l), (skipn 9 l), (fold_left (roll 2 (1 # 100000) (lic_sys [2]%nat [1])) drip r0).
  split; [apply lic_wf|]. split; [lia|]. split; [intros f [<-|[]]; vm_compute; discriminate|]. split; [reflexivity|]. split; [reflexivity|].
  split; [vm_compute; split; discriminate|]. split; [|split].
  - rewrite firstn_skipn. apply rolls_run. vm_compute. reflexivity.
  - vm_compute. lia.
  - vm_compute. reflexivity.
Qed.
Print Assumptions C22_snapping_refuted.

(** C22 with returns (a negative factor): a window of 3 timesteps of a licence of 10 uses 20. *)
Definition returns : list (nat -> Q) := [amounts [10; 0]; amounts [0; 10]; amounts [10; 0]; amounts [10; 0]; amounts [0; 0]].

Theorem C22_returns_refuted : exists S n k m i r0 a w r,
  wf_sys S /\ (2 <= k)%nat /\ i_max i = MaxNumber m /\
  rolling_reset i k = Some r0 /\ 0 <= r_vol r0 <= m /\
  rolling_run false S n k m r0 (a ++ w) r /\ (length w <= k)%nat /\
  charges false S n w == 2 * m /\ 0 < m.
Proof.
  exists (lic_sys [2; 4]%nat [1; - (1)]), 6%nat, 3%nat, 10, {| i_volume := Some 10; i_pc := None; i_max := MaxNumber 10 |}.
  set (r0 := {| r_vol := 10; r_mem := repeat ((10 / (10 / 10) - 10) / inject_Z (Z.of_nat 3 - 1)) 2; r_ptr := 0 |}).
  set (l := rolls 3 10 (lic_sys [2; 4]%nat [1; - (1)]) r0 returns).
  exists r0, (firstn 2 l), (skipn 2 l), (fold_left (roll 3 10 (lic_sys [2; 4]%nat [1; - (1)])) returns r0).
  split; [apply lic_wf|]. split; [lia|]. split; [reflexivity|]. split; [reflexivity|]. split; [cbn; lra|]. split; [|split; [|split]].
  - rewrite firstn_skipn. apply rolls_run. vm_compute. reflexivity.
  - vm_compute. lia.
  - vm_compute. reflexivity.
  - lra.
Qed.
Print Assumptions C22_returns_refuted.
