(** C83: the lpsolve solver and the GLPK solver answer alike. *)
From Verif Require Import Base Paths Sorting Routes_model LP_model LP_check Sys_model RouteLP_model RouteLP_spec RouteLP_proofs
  RouteLP_flow RouteLP_props EdgeLP_proofs LpSolve_model LpSolve_spec LpSolve_proofs LpSolve_same.
Open Scope Q_scope.

(** ** The same flows and the same costs *)
Theorem C83_can_be_posed : forall triv S c d P, wf_sys S -> posed triv S d = Ok P -> unchanged S c d ->
  exists L, lposed triv S c d = Ok L.
Proof. exact lposed_total. Qed.
Print Assumptions C83_can_be_posed.

Theorem C83_same_flows : forall triv S c d P, wf_sys S -> posed triv S d = Ok P -> unchanged S c d -> settled_data S d ->
  forall fl,
  (exists x, solved triv S d x /\ forall n, committed triv S x n == fl n) <->
  (exists z, lsolved triv S c d z /\ forall n, lcommitted triv S z n == fl n).
Proof.
  intros triv S c d P W HP HU HS fl. destruct (lposed_total triv S c d P W HP HU) as [L HL]. split.
  - intros [x [[P' [HP' HF]] H]]. assert (P' = P) as -> by congruence. exists (extend triv S x). split.
    + exists L. split; [exact HL|]. now apply (glpk_to_lps triv S c d P L W HP HL HU HS).
    + intros n. rewrite lcommitted_committed by exact W. rewrite <- (H n).
      assert (forall k, (k < length (routes triv S))%nat -> extend triv S x k == x k) as E by (intros k Hk; now rewrite extend_route).
      rewrite <- !lcommitted_committed by exact W. rewrite !lcommitted_sum. now apply rsum_agree.
  - intros [z [[L' [HL' HF]] H]]. assert (L' = L) as -> by congruence. exists z. split.
    + exists P. split; [exact HP|]. now apply (lps_to_glpk triv S c d P L W HP HL HU HS).
    + intros n. rewrite <- lcommitted_committed by exact W. apply H.
Qed.
Print Assumptions C83_same_flows.

Lemma same_cost triv S c d P L z : wf_sys S -> posed triv S d = Ok P -> lposed triv S c d = Ok L ->
  (forall r, In r (routes triv S) -> no_trace (path_cost S d r)) -> feasible L z -> objective L z == objective P z.
Proof.
  intros W HP HL HN HF. apply (lps_asks triv S c d L z W HL) in HF as [_ [HC _]].
  rewrite (lobjective triv S c d L z W HL HC), (objective_rsum triv S d P z W HP). apply rsum_ext.
  intros r Hr. now rewrite no_trace_round by auto.
Qed.
Lemma objective_agree triv S d P x z : wf_sys S -> posed triv S d = Ok P ->
  (forall k, (k < length (routes triv S))%nat -> x k == z k) -> objective P x == objective P z.
Proof. intros W HP H. rewrite !(objective_rsum triv S d P _ W HP). now apply rsum_agree. Qed.

(** The cheapest answers of either solver report the same flows, at the same cost. *)
Theorem C83_same_optima : forall triv S c d P, wf_sys S -> posed triv S d = Ok P -> unchanged S c d -> settled_data S d ->
  (forall r, In r (routes triv S) -> no_trace (path_cost S d r)) ->
  (forall fl,
    (exists x, solved_optimally triv S d x /\ forall n, committed triv S x n == fl n) <->
    (exists z, lsolved_optimally triv S c d z /\ forall n, lcommitted triv S z n == fl n)) /\
  (forall L x z, lposed triv S c d = Ok L -> optimal P x -> optimal L z -> objective P x == objective L z).
Proof.
  intros triv S c d P W HP HU HS HN. destruct (lposed_total triv S c d P W HP HU) as [L HL].
  assert (forall x k, (k < length (routes triv S))%nat -> extend triv S x k == x k) as EX by (intros x k Hk; now rewrite extend_route).
  pose proof (lps_to_glpk triv S c d P L W HP HL HU HS) as LG. pose proof (glpk_to_lps triv S c d P L W HP HL HU HS) as GL.
  assert (forall z, feasible L z -> objective L z == objective P z) as CO by (intros z Hz; now apply (same_cost triv S c d P L z)).
  assert (forall x, objective P (extend triv S x) == objective P x) as CE by (intros x; apply (objective_agree triv S d P _ _ W HP); apply EX).
  assert (forall x, optimal P x -> optimal L (extend triv S x)) as OE.
  { intros x [F M]. split; [now apply GL|]. intros y Hy. rewrite (CO _ (GL x F)), CE, (CO y Hy). apply M. now apply LG. }
  assert (forall z, optimal L z -> optimal P z) as OP.
  { intros z [F M]. split; [now apply LG|]. intros y Hy. rewrite <- (CO z F), <- (CE y), <- (CO _ (GL y Hy)). apply M. now apply GL. }
  split.
  - intros fl. split.
    + intros [x [[P' [HP' HO]] H]]. assert (P' = P) as -> by congruence. exists (extend triv S x). split.
      * exists L. split; [exact HL|]. now apply OE.
      * intros n. rewrite lcommitted_committed by exact W. rewrite <- (H n).
        rewrite <- !lcommitted_committed by exact W. rewrite !lcommitted_sum. apply rsum_agree, EX.
    + intros [z [[L' [HL' HO]] H]]. assert (L' = L) as -> by congruence. exists z. split.
      * exists P. split; [exact HP|]. now apply OP.
      * intros n. rewrite <- lcommitted_committed by exact W. apply H.
  - intros L' x z HL' HX HZ. assert (L' = L) as -> by congruence. destruct HX as [F M]. pose proof HZ as [F' M'].
    apply Qle_antisym.
    + rewrite (CO z F'). apply M. now apply LG.
    + rewrite <- (CE x), <- (CO _ (GL x F)). apply M', GL, F.
Qed.
Print Assumptions C83_same_optima.

(** ** What holds of the lpsolve solver without conditions on the numbers *)
(** The bounds hold exactly, without the 1e-8 of the GLPK solver. *)
Theorem C83_flow_in_bounds : forall triv S c d z n, wf_sys S -> lsolved triv S c d z ->
  In n (s_nodes S) -> is_flow_node (s_kind S n) = true ->
  0 <= lcommitted triv S z n /\
  (forall v, d_min d n = Fin v -> v <= lcommitted triv S z n) /\ (forall v, d_max d n = Fin v -> lcommitted triv S z n <= v).
Proof.
  intros triv S c d z n W [L [HL HF]] Hn Hk. apply (lps_asks triv S c d L z W HL) in HF as [_ [_ A]].
  pose proof (as_flow _ _ _ _ _ _ _ _ A n Hn Hk) as [H1 H2].
  assert (lcommitted triv S z n == rsum (routes triv S) z (fun r => bq (carries S n r))) as E0
    by (rewrite lcommitted_committed by exact W; now apply committed_flow).
  split; [rewrite E0|split].
  - apply rsum_nonneg; [apply (as_nonneg _ _ _ _ _ _ _ _ A)|]. intros r _. destruct (carries S n r); unfold bq; lra.
  - intros v E. rewrite E in H1. now rewrite E0.
  - intros v E. rewrite E in H2. now rewrite E0.
Qed.
Print Assumptions C83_flow_in_bounds.

(** No storage is above its maximum volume at the end of the timestep, whatever it was at its beginning, and none is
    drawn down below its minimum volume. *)
Theorem C83_volume_in_bounds : forall triv S c d z st, wf_sys S -> lsolved triv S c d z -> 0 < d_days d ->
  In st (s_nodes S) -> s_kind S st = KStorage ->
  let after := d_vol d st + lcommitted triv S z st * d_days d in
  (d_minvol d st <= after \/ d_vol d st <= after) /\ (forall m, d_maxvol d st = Fin m -> after <= m).
Proof.
  intros triv S c d z st W [L [HL HF]] HD Hn Hk. cbv zeta. apply (lps_asks triv S c d L z W HL) in HF as [_ [_ A]].
  pose proof (as_storage _ _ _ _ _ _ _ _ A st Hn Hk) as [H1 H2].
  pose proof (lcommitted_committed triv S z st W) as C. pose proof (committed_storage_routes triv S z st W Hn Hk) as E.
  change (committed triv S z st == rsum (routes triv S) z (net_in S st)) in E.
  unfold volume_lb in H1. cbn [ext_le_q] in H1. rewrite <- E in H1. split; [rewrite C|].
  - assert (- qmax (d_vol d st - d_minvol d st) 0 <= committed triv S z st * d_days d) as G.
    { apply (Qmult_le_compat_r _ _ (d_days d)) in H1; [|lra]. unfold Qdiv in H1.
      rewrite <- Qmult_assoc, (Qmult_comm (/ d_days d)), Qmult_inv_r, Qmult_1_r in H1 by lra. exact H1. }
    destruct (qlebP (d_minvol d st) (d_vol d st)) as [K|K].
    + left. assert (qmax (d_vol d st - d_minvol d st) 0 == d_vol d st - d_minvol d st) as X by qmm. lra.
    + right. assert (qmax (d_vol d st - d_minvol d st) 0 == 0) as X by qmm. lra.
  - intros m Em. rewrite Em in H2. cbn [volume_ub q_le_ext] in H2. rewrite <- E in H2.
    apply (Qmult_le_compat_r _ _ (d_days d)) in H2; [|lra]. unfold Qdiv in H2.
    rewrite <- Qmult_assoc, (Qmult_comm (/ d_days d)), Qmult_inv_r, Qmult_1_r in H2 by lra. rewrite C. lra.
Qed.
Print Assumptions C83_volume_in_bounds.

(** Limits or factors of aggregated nodes that are Parameters are refused when the model is set up. *)
Theorem C83_parameters_refused : forall triv S c d a, In a (s_nodes S) -> s_kind S a = KAggregated ->
  q_min c a = None \/ q_max c a = None \/ (s_has_factors S a = true /\ q_fixed c a = false) ->
  exists e, lposed triv S c d = Err e.
Proof.
  intros triv S c d a Ha Ka H. destruct (lposed triv S c d) as [L|e] eqn:HL; [exfalso|eauto].
  assert (In a (nodes_of S is_aggregated)) as Ia by (unfold nodes_of; apply filter_In; rewrite Ka; auto).
  unfold lposed in HL.
  destruct (match s_nodes S with [] => true | _ => false end); [discriminate|].
  destruct (existsb (fun a => s_has_factors S a && negb (q_fixed c a)) (nodes_of S is_aggregated)) eqn:EF; [discriminate|].
  destruct (mapM (limited c) (nodes_of S is_aggregated)) as [lim|] eqn:EL; [|discriminate]. cbn [bindR] in HL.
  destruct (match routes triv S with [] => true | _ => false end); [discriminate|].
  destruct (match supplys S ++ demands S with [] => true | _ => false end); [discriminate|].
  do 7 (match type of HL with bindR ?r _ = _ => destruct r; [|discriminate]; cbn [bindR] in HL end).
  destruct (concatR (mapM (agg_lrows S c (routes triv S)) (nodes_of S is_aggregated))) as [r8|] eqn:E8; [|discriminate].
  destruct (concatR_mapM _ _ _ E8) as [X _]. destruct (X a Ia) as [l [Hl _]]. unfold agg_lrows, limited in Hl.
  destruct H as [H|[H|[H1 H2]]].
  - rewrite H in Hl. discriminate.
  - rewrite H in Hl. destruct (q_min c a) as [[| |]|]; discriminate.
  - assert (existsb (fun a => s_has_factors S a && negb (q_fixed c a)) (nodes_of S is_aggregated) = true) as K; [|congruence].
    apply existsb_exists. exists a. split; [exact Ia|]. now rewrite H1, H2.
Qed.
Print Assumptions C83_parameters_refused.

(** ** Example: the network of RouteLP_props, with a storage, two aggregated nodes, a virtual storage, two domains. *)
Definition ex_setup : setup_data := {|
  q_fixed := fun _ => true; q_factors := d_factors ex_data;
  q_min := fun a => Some (d_min ex_data a); q_max := fun a => Some (d_max ex_data a) |}.
Definition lsolved_check (triv : bool) (S : sys) (c : setup_data) (d : data) (z : nat -> Q) : bool :=
  match lposed triv S c d with Ok L => feasible_check L z | Err _ => false end.
Lemma lsolved_check_sound triv S c d z : lsolved_check triv S c d z = true -> lsolved triv S c d z.
Proof.
  unfold lsolved_check. destruct (lposed triv S c d) as [L|] eqn:E; [|discriminate]. intros H. exists L.
  split; [exact E|]. now apply feasible_check_sound.
Qed.

(** Columns: the six routes of [ex_x], then the demands 4, 7, 12. *)
Example C83_example : lsolved false ex_sys ex_setup ex_data (fun c => nth c [7; 2; 4; 1; 6; 20; 10; 10; 20] 0) /\
  solved false ex_sys ex_data (fun c => nth c [7; 2; 4; 1; 6; 20; 10; 10; 20] 0) /\
  map (lcommitted false ex_sys (fun c => nth c [7; 2; 4; 1; 6; 20; 10; 10; 20] 0)) [1; 2; 3; 4; 5; 6; 7; 11; 12]%nat =
  [13; 13; 3; 10; 7; 13; 10; 20; 20].
Proof.
  split; [apply lsolved_check_sound; vm_compute; reflexivity|]. split; [apply solved_check_sound; vm_compute; reflexivity|].
  vm_compute. reflexivity.
Qed.

Example C83_example_regular : unchanged ex_sys ex_setup ex_data /\ settled_data ex_sys ex_data.
Proof.
  assert (forall a, In a (s_nodes ex_sys) -> a = 1 \/ a = 2 \/ a = 3 \/ a = 4 \/ a = 5 \/ a = 6 \/ a = 7 \/ a = 8 \/ a = 9 \/ a = 10 \/ a = 11 \/ a = 12)%nat as HI
    by (cbn; intros a H; intuition congruence).
  assert (forall v, qeqb v 0 || qleb (1 # 100000000) v || qleb v (- (1 # 100000000)) = true -> no_trace v) as NT.
  { intros v H. unfold no_trace. destruct (qeqbP v 0) as [A|A]; [tauto|]. destruct (qlebP (1 # 100000000) v) as [B|B]; [tauto|].
    destruct (qlebP v (- (1 # 100000000))) as [C|C]; [tauto|discriminate]. }
  split.
  - intros a Ha Ka. split; [reflexivity|]. split; [reflexivity|]. intros Hh. split; [reflexivity|]. split; [reflexivity|].
    cbn in Hh. apply Nat.eqb_eq in Hh. subst a. reflexivity.
  - constructor.
    + reflexivity.
    + intros n Hn _. apply HI in Hn. repeat destruct Hn as [->|Hn]; try subst n; cbn; unfold settled; cbn [settled_end];
        repeat split; try exact I; apply NT; vm_compute; reflexivity.
    + intros n Hn Hk. apply HI in Hn. repeat destruct Hn as [->|Hn]; try subst n; try discriminate Hk.
      split; [vm_compute; discriminate|]. cbn [d_maxvol ex_data]. split; [vm_compute; discriminate|].
      unfold settled. cbn [settled_end]. repeat split; apply NT; vm_compute; reflexivity.
    + intros n Hn Hk. apply HI in Hn. repeat destruct Hn as [->|Hn]; try subst n; try discriminate Hk.
      split; [vm_compute; discriminate|]. cbn [d_maxvol ex_data]. split; [vm_compute; discriminate|].
      unfold settled. cbn [settled_end]. repeat split; apply NT; vm_compute; reflexivity.
Qed.

(** ** Where they differ *)
(** A reservoir 3 (fed by 1 through 4, drawn through 5 to 6), at most 2 a day drawn. *)
Definition full_sys : sys := {|
  s_nodes := [1; 3; 4; 5; 6]%nat; s_edges := [(1, 4); (5, 6)]%nat; s_name := fun n => n; s_fqn := fun n => n;
  s_domain := fun _ => 0%nat;
  s_kind := fun n => match n with 1 | 5 => KInput | 4 | 6 => KOutput | 3 => KStorage | _ => KOther end%nat;
  s_slot := fun n => match n with 4 => OutputOf 3 | 5 => InputOf 3 | _ => NoSlot end%nat;
  s_inputs := fun n => match n with 3 => [5] | _ => [] end%nat;
  s_outputs := fun n => match n with 3 => [4] | _ => [] end%nat;
  s_members := fun _ => []; s_vfactors := fun _ => []; s_has_factors := fun _ => false; s_weights := fun _ => None; s_conv := fun _ => 1 |}.
Definition full_data : data := {|
  d_cost := fun _ => 0; d_min := fun _ => Fin 0; d_max := fun n => match n with 6%nat => Fin 2 | _ => PInf end;
  d_factors := fun _ => []; d_minvol := fun _ => 0; d_maxvol := fun _ => Fin 50; d_vol := fun _ => 60;
  d_active := fun _ => true; d_days := 1 |}.
Definition no_setup : setup_data := {| q_fixed := fun _ => true; q_factors := fun _ => []; q_min := fun _ => Some (Fin 0); q_max := fun _ => Some PInf |}.
Lemma full_wf : wf_sys full_sys.
Proof.
  constructor.
  - cbn. repeat constructor; cbn; intuition discriminate.
  - cbn. repeat constructor; cbn; intuition discriminate.
  - cbn. intros a b H. repeat (destruct H as [H|H]; [injection H as <- <-; split; cbn; tauto|]). contradiction.
  - intros n st _. cbn. destruct st as [|[|[|[|st]]]];
    do 6 (destruct n as [|n]; [split; cbn; intuition (try discriminate)|]); split; cbn; intuition discriminate.
  - intros n st _. cbn. destruct st as [|[|[|[|st]]]];
    do 6 (destruct n as [|n]; [split; cbn; intuition (try discriminate)|]); split; cbn; intuition discriminate.
  - intros n st H. destruct st as [|[|[|[|st]]]]; cbn in H; try contradiction. destruct H as [<-|[]]. cbn. tauto.
  - intros n st H. destruct st as [|[|[|[|st]]]]; cbn in H; try contradiction. destruct H as [<-|[]]. cbn. tauto.
  - intros n st H. cbn in H. do 6 (destruct n as [|n]; [destruct H as [H|H]; try discriminate H; injection H as <-; cbn; tauto|]).
    destruct H as [H|H]; discriminate H.
  - intros st. destruct st as [|[|[|[|st]]]]; repeat constructor; cbn; tauto.
  - intros st. destruct st as [|[|[|[|st]]]]; repeat constructor; cbn; tauto.
Qed.
Lemma full_routes : routes false full_sys = [[1; 4]; [5; 6]]%nat.
Proof. vm_compute. reflexivity. Qed.

(** A volume above the maximum, as after a maximum volume that falls during the year: with GLPK the storage keeps its water, the
    lpsolve solver must draw down the excess in one timestep and has no answer if that is impossible. *)
Theorem C83_overfull_refuted : exists S c d, wf_sys S /\ unchanged S c d /\ 0 < d_days d /\
  (exists x, solved false S d x) /\ ~ (exists z, lsolved false S c d z).
Proof.
  exists full_sys, no_setup, full_data. split; [exact full_wf|]. split.
  { intros a Ha Ka. exfalso. cbn in Ha. intuition (subst; discriminate). }
  split; [reflexivity|]. split.
  { exists (fun _ => 0). apply solved_check_sound. vm_compute. reflexivity. }
  intros [z [L [HL HF]]]. apply (lps_asks false full_sys no_setup full_data L z full_wf HL) in HF as [_ [_ A]].
  pose proof (as_storage _ _ _ _ _ _ _ _ A 3%nat ltac:(cbn; tauto) eq_refl) as [_ H1].
  pose proof (as_flow _ _ _ _ _ _ _ _ A 6%nat ltac:(cbn; tauto) eq_refl) as [_ H2].
  pose proof (as_nonneg _ _ _ _ _ _ _ _ A 0%nat) as H3. rewrite full_routes in H1, H2, H3.
  specialize (H3 ltac:(cbn; lia)).
  unfold rsum, enumerate in H1, H2.
  cbn [length seq combine map qsum fst snd volume_ub full_data d_maxvol d_vol d_days d_max q_le_ext] in H1, H2.
  change (net_in full_sys 3 [1%nat; 4%nat]) with 1 in H1. change (net_in full_sys 3 [5%nat; 6%nat]) with (- (1)) in H1.
  change (bq (carries full_sys 6 [1%nat; 4%nat])) with 0 in H2. change (bq (carries full_sys 6 [5%nat; 6%nat])) with 1 in H2.
  change ((50 - 60) / 1) with (- (10 # 1)) in H1. lra.
Qed.
Print Assumptions C83_overfull_refuted.

(** A limit of an aggregated node that is changed after the model was set up is not noticed. *)
Theorem C83_changed_limit_refuted : exists S c d z a m, wf_sys S /\ lsolved false S c d z /\
  In a (s_nodes S) /\ s_kind S a = KAggregated /\ d_max d a = Fin m /\
  (forall r, In r (routes false S) -> one_member (s_members S a) r) /\
  m < aggregated_flow S (lcommitted false S z) a.
Proof.
  pose (d' := {| d_cost := d_cost ex_data; d_min := d_min ex_data;
    d_max := fun n => match n with 8%nat => Fin 20 | _ => d_max ex_data n end; d_factors := d_factors ex_data;
    d_minvol := d_minvol ex_data; d_maxvol := d_maxvol ex_data; d_vol := d_vol ex_data;
    d_active := d_active ex_data; d_days := 2 |}).
  exists ex_sys, ex_setup, d', (fun c => nth c [7; 2; 4; 1; 6; 20; 10; 10; 20] 0), 8%nat, 20.
  split; [exact ex_wf|]. split; [apply lsolved_check_sound; vm_compute; reflexivity|].
  split; [cbn; tauto|]. split; [reflexivity|]. split; [reflexivity|]. split; [exact (proj2 C19_example)|]. vm_compute. reflexivity.
Qed.
Print Assumptions C83_changed_limit_refuted.
