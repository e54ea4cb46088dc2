(** C81: a BreakLink can be used in place of a Link. *)
From Coq Require Import Sorting.Permutation.
From Verif Require Import Base Paths Sorting Routes_model LP_model Sys_model RouteLP_model RouteLP_spec RouteLP_proofs RouteLP_flow LP_check LP_optimal Storage_model Sim_model
  EdgeLP_model EdgeLP_spec EdgeLP_meets EdgeLP_proofs EdgeLP_limits EdgeLP_decomp EdgeLP_posed EdgeLP_check EdgeLP_props Connect_model Connect_spec Connect_proofs
  Break_model Break_spec Break_proofs.
Local Open Scope nat_scope.
Local Open Scope list_scope.
Local Open Scope Q_scope.

(** ** Building the network *)
(** A program that connects nodes leaves the same edges, those from and to the Link being attached to the nodes inside the BreakLink; and one more
    inside. *)
Theorem C81_connect : forall w b ops, builds w b ops ->
  Permutation (edges (perform (new_breaklink w b) ops)) ((b_in b, b_link b) :: map (rerouted b) (edges (perform (new_link w (b_self b)) ops))).
Proof.
  intros w b ops [D New Oth Nd Ca]. apply (pw_edges b). apply (paired_perform b D ops); [|exact Ca]. now apply paired_new.
Qed.
Print Assumptions C81_connect.

(** ** The edge solver *)
(** What it may answer for the one model it may answer for the other: the same flows are reported and cost the same. *)
Theorem C81_edge_same_flows : forall S T d d' b triv triv' E E', replaces S T d d' b -> eposed triv S d = Ok E -> eposed triv' T d' = Ok E' ->
  (forall y, feasible E y -> inner_only S y -> exists y', feasible E' y' /\ inner_only T y' /\
     same_reports S b (ecommitted S y) (ecommitted T y') /\ objective E' y' == objective E y) /\
  (forall y', feasible E' y' -> inner_only T y' -> exists y, feasible E y /\ inner_only S y /\
     same_reports S b (ecommitted S y) (ecommitted T y') /\ objective E' y' == objective E y).
Proof.
  intros S T d d' b triv triv' E E' R HE HE'. split; intros y F I; [eapply edge_to_break|eapply edge_of_break]; eauto.
Qed.
Print Assumptions C81_edge_same_flows.

Theorem C81_edge_same_optima : forall S T d d' b triv triv' E E', replaces S T d d' b -> eposed triv S d = Ok E -> eposed triv' T d' = Ok E' ->
  (forall u v, In (u, v) (s_edges S) -> s_domain S u = s_domain S v) ->
  (forall y, optimal E y -> exists y', optimal E' y' /\ same_reports S b (ecommitted S y) (ecommitted T y') /\ objective E' y' == objective E y) /\
  (forall y', optimal E' y' -> exists y, optimal E y /\ same_reports S b (ecommitted S y) (ecommitted T y') /\ objective E' y' == objective E y).
Proof.
  intros S T d d' b triv triv' E E' R HE HE' Dm. destruct (C81_edge_same_flows S T d d' b triv triv' E E' R HE HE') as [A1 A2].
  assert (forall u v, In (u, v) (s_edges T) -> s_domain T u = s_domain T v) as Dm'.
  { intros u v H. apply (T_edge S T d d' b R) in H as [H|[e [H Ee]]].
    - injection H as -> ->. pose proof (T_same_domain_in S T d d' b R) as Q. now apply Nat.eqb_eq in Q.
    - pose proof (T_same_domain S T d d' b R e H) as Q. rewrite <- Ee in Q. destruct e as [e1 e2]. unfold same_domain in Q. cbn [fst snd] in Q.
      rewrite (Dm e1 e2 H), Nat.eqb_refl in Q. now apply Nat.eqb_eq in Q. }
  split; intros y [F O].
  - destruct (A1 y F (one_domain_inner S y Dm)) as (y' & F' & _ & Rs & Ho). exists y'. split; [|auto]. split; [exact F'|].
    intros z' Fz'. destruct (A2 z' Fz' (one_domain_inner T z' Dm')) as (z & Fz & _ & _ & Hz). rewrite Ho, Hz. auto.
  - destruct (A2 y F (one_domain_inner T y Dm')) as (y' & F' & _ & Rs & Ho). exists y'. split; [|auto]. split; [exact F'|].
    intros z' Fz'. destruct (A1 z' Fz' (one_domain_inner S z' Dm)) as (z & Fz & _ & _ & Hz). rewrite <- Ho, <- Hz. auto.
Qed.
Print Assumptions C81_edge_same_optima.

(** ** The route solver *)
Theorem C81_route_same_flows : forall S T d d' b triv triv' P P', replaces S T d d' b -> comparable triv S -> comparable triv' T ->
  ~ cyclic (inner_edge S) -> no_short_circuit S -> posed triv S d = Ok P -> posed triv' T d' = Ok P' ->
  (forall z, feasible P z -> exists z', feasible P' z' /\ same_reports S b (committed triv S z) (committed triv' T z')) /\
  (forall z', feasible P' z' -> exists z, feasible P z /\ same_reports S b (committed triv S z) (committed triv' T z')).
Proof.
  intros S T d d' b triv triv' P P' R CS CT Ac NS HP HP'. split; intros z F.
  - destruct (route_to_break S T d d' b R triv triv' P P' CS CT Ac NS HP HP' z F) as (z' & A & B & _). eauto.
  - destruct (route_of_break S T d d' b R triv triv' P P' CS CT Ac NS HP HP' z F) as (z' & A & B & _). eauto.
Qed.
Print Assumptions C81_route_same_flows.

(** Costs of routes between 0 and 1e-8 are taken as 0; without such costs the cheapest answers are the same. *)
Theorem C81_route_same_optima : forall S T d d' b triv triv' P P', replaces S T d d' b -> comparable triv S -> comparable triv' T ->
  ~ cyclic (inner_edge S) -> no_short_circuit S -> posed triv S d = Ok P -> posed triv' T d' = Ok P' -> tellable S triv d -> tellable T triv' d' ->
  (forall z, optimal P z -> exists z', optimal P' z' /\ same_reports S b (committed triv S z) (committed triv' T z') /\ objective P' z' == objective P z) /\
  (forall z', optimal P' z' -> exists z, optimal P z /\ same_reports S b (committed triv S z) (committed triv' T z') /\ objective P' z' == objective P z).
Proof.
  intros S T d d' b triv triv' P P' R CS CT Ac NS HP HP' C1 C2.
  pose proof (route_to_break S T d d' b R triv triv' P P' CS CT Ac NS HP HP') as A1. pose proof (route_of_break S T d d' b R triv triv' P P' CS CT Ac NS HP HP') as A2.
  split; intros y [F O].
  - destruct (A1 y F) as (y' & F' & Rs & Ho). specialize (Ho C1 C2). exists y'. split; [|auto]. split; [exact F'|].
    intros z' Fz'. destruct (A2 z' Fz') as (z & Fz & _ & Hz). rewrite Ho, (Hz C1 C2). auto.
  - destruct (A2 y F) as (y' & F' & Rs & Ho). specialize (Ho C1 C2). exists y'. split; [|auto]. split; [exact F'|].
    intros z' Fz'. destruct (A1 z' Fz') as (z & Fz & _ & Hz). rewrite <- Ho, <- (Hz C1 C2). auto.
Qed.
Print Assumptions C81_route_same_optima.

(** ** Nothing is ever stored in it *)
Theorem C81_holds_nothing : forall S T d d' b triv' P' z', replaces S T d d' b -> comparable triv' T -> posed triv' T d' = Ok P' -> feasible P' z' ->
  committed triv' T z' (b_store b) == 0 /\ (d_vol d' (b_store b) == 0 -> vol_after T d' (committed triv' T z') (b_store b) == 0).
Proof.
  intros S T d d' b triv' P' z' R CT HP F. apply (route_meets triv' T d' z' CT P' HP) in F as [_ M].
  destruct (rp_kinds _ _ _ _ _ R) as (_ & _ & _ & Kst & _). destruct (rp_store_data _ _ _ _ _ R) as (_ & Y2 & Y3).
  assert (In (b_store b) (s_nodes T)) as Hst by (apply (T_node S T d d' b R); tauto).
  pose proof (meets_storage _ _ _ M _ Hst Kst) as Ms. rewrite Y2, Y3 in Ms. unfold storage_bounds in Ms. change (qeqb 0 0) with true in Ms. cbn in Ms.
  split; [exact Ms|]. intros V. unfold vol_after. rewrite Kst, Y2, Y3. unfold volume_after, snap.
  assert (d_vol d' (b_store b) + committed triv' T z' (b_store b) * d_days d' == 0) as Z by (rewrite V, Ms; ring).
  revert Z. generalize (d_vol d' (b_store b) + committed triv' T z' (b_store b) * d_days d'). intros v Z.
  destruct (qltb (qabs (v - 0)) eps6); destruct (qltb _ eps6); first [reflexivity|exact Z].
Qed.
Print Assumptions C81_holds_nothing.

(** ** An example: an input (1), a link (2), a demand (3) and a dearer link (4) beside the first. *)
Definition ex_break : breaklink := BreakLink 2 5 6 7 8.
Definition ex_world : world := World (fun _ => 0%nat) (fun _ => Plain) [] (fun _ => false).
Definition ex_ops : list op := [Connect 1 2 None None; Connect 2 3 None None; Connect 1 4 None None; Connect 4 3 None None]%nat.
Definition link_sys : sys := {|
  s_nodes := [1; 2; 3; 4]%nat; s_edges := edges (perform (new_link ex_world 2%nat) ex_ops);
  s_name := fun n => n; s_fqn := fun n => n; s_domain := fun n => 0%nat;
  s_kind := fun n => match n with 1 => KInput | 2 | 4 => KLink | 3 => KOutput | _ => KOther end%nat;
  s_slot := fun _ => NoSlot; s_inputs := fun _ => []; s_outputs := fun _ => []; s_members := fun _ => []; s_vfactors := fun _ => [];
  s_has_factors := fun _ => false; s_weights := fun _ => None; s_conv := fun _ => 1 |}.
Definition break_sys : sys := {|
  s_nodes := [1; 2; 5; 6; 7; 8; 3; 4]%nat; s_edges := edges (perform (new_breaklink ex_world ex_break) ex_ops);
  s_name := fun n => n; s_fqn := fun n => n; s_domain := fun n => 0%nat;
  s_kind := fun n => match n with 1 | 8 => KInput | 5 | 4 => KLink | 3 | 7 => KOutput | 6 => KStorage | _ => KOther end%nat;
  s_slot := fun n => match n with 7 => OutputOf 6 | 8 => InputOf 6 | _ => NoSlot end%nat;
  s_inputs := fun n => match n with 6 => [8] | _ => [] end%nat; s_outputs := fun n => match n with 6 => [7] | _ => [] end%nat;
  s_members := fun _ => []; s_vfactors := fun _ => [];
  s_has_factors := fun _ => false; s_weights := fun _ => None; s_conv := fun _ => 1 |}.
Definition break_data : data := {|
  d_cost := fun n => match n with 2%nat | 5%nat => 1 | 4%nat => 2 | 3%nat => - (10) | _ => 0 end;
  d_min := fun n => Fin 0; d_max := fun n => match n with 1%nat => Fin 10 | 2%nat | 5%nat => Fin 6 | 3%nat => Fin 9 | _ => PInf end;
  d_factors := fun _ => []; d_minvol := fun _ => 0; d_maxvol := fun _ => Fin 0; d_vol := fun _ => 0; d_active := fun _ => true; d_days := 1 |}.

Example ex_builds : builds ex_world ex_break ex_ops.
Proof.
  constructor.
  - cbn. repeat constructor; cbn; intuition discriminate.
  - intros u v [].
  - intros n s a N Hi H. cbn in H. destruct H as [[_ ->]|[_ ->]]; auto.
  - constructor.
  - intros o Ho. cbn in Ho. repeat (destruct Ho as [<-|Ho]; [cbn; unfold inside; cbn; intuition discriminate|]); contradiction.
Qed.
Lemma link_wf : wf_sys link_sys.
Proof. apply plain_wf; try reflexivity. edges_NoDup. Qed.
Lemma link_regular : regular link_sys.
Proof. apply regular_check_sound; [exact link_wf|vm_compute; reflexivity]. Qed.
Example ex_replaces : replaces link_sys break_sys break_data break_data ex_break.
Proof.
  constructor.
  - exact link_regular.
  - cbn. auto.
  - cbn. repeat constructor; cbn; intuition discriminate.
  - cbn. repeat (apply NoDup_Permutation_bis || fail); [repeat constructor; cbn; intuition discriminate|cbn; lia|intros n; cbn; tauto].
  - exact (C81_connect ex_world ex_break ex_ops ex_builds).
  - cbn. repeat split; intros n [<-|[<-|[<-|[<-|[]]]]] N; try reflexivity. now elim N.
  - cbn. repeat split; try reflexivity. intros n A1 A2 A3 A4. do 9 (destruct n as [|n]; [try reflexivity; exfalso; first [now apply A1|now apply A2]|]). reflexivity.
  - cbn. split; [|reflexivity]. intros n N. do 7 (destruct n as [|n]; [try reflexivity; now elim N|]). reflexivity.
  - cbn. split; [|reflexivity]. intros n N. do 7 (destruct n as [|n]; [try reflexivity; now elim N|]). reflexivity.
  - intros n _. repeat split; reflexivity.
  - repeat split; reflexivity.
  - intros a _ _ [].
  - intros a _ _. cbn. split; [constructor|intros m m' []].
  - intros n _ _. repeat split; reflexivity.
  - reflexivity.
  - repeat split; reflexivity.
  - repeat split; reflexivity.
  - repeat split; reflexivity.
Qed.
Lemma break_wf : wf_sys break_sys.
Proof. exact (T_wf _ _ _ _ _ ex_replaces). Qed.
Example ex_comparable : comparable false link_sys /\ comparable false break_sys.
Proof. split; apply comparable_check_sound; first [exact link_wf|exact break_wf|vm_compute; reflexivity]. Qed.
Example ex_routes : routes false link_sys = [[1; 2; 3]; [1; 4; 3]]%nat /\ routes false break_sys = [[1; 4; 3]; [1; 7]; [8; 5; 3]]%nat.
Proof. split; vm_compute; reflexivity. Qed.

(** The cheaper link is full, the rest goes the other way; the BreakLink reports what the Link did. *)
Definition link_answer (k : nat) : Q := nth k [6; 3] 0.
Definition break_answer (k : nat) : Q := nth k [3; 6; 6] 0.
Example C81_example : solved false link_sys break_data link_answer /\ solved false break_sys break_data break_answer /\
  map (committed false link_sys link_answer) [1; 2; 3; 4]%nat = [9; 6; 9; 3] /\
  map (reported ex_break (committed false break_sys break_answer)) [1; 2; 3; 4]%nat = [9; 6; 9; 3] /\ committed false break_sys break_answer 6%nat == 0.
Proof.
  split; [apply solved_check_sound; vm_compute; reflexivity|]. split; [apply solved_check_sound; vm_compute; reflexivity|].
  split; [vm_compute; reflexivity|]. split; vm_compute; reflexivity.
Qed.

(** ** Where it cannot: as the member of an aggregated node *)
(** An AggregatedNode (9) limits the two links to 5 in all.  The BreakLink is on no route itself, so that only the other link is limited. *)
Definition with_agg (S : sys) : sys := {|
  s_nodes := 9%nat :: s_nodes S; s_edges := s_edges S; s_name := s_name S; s_fqn := s_fqn S; s_domain := s_domain S;
  s_kind := fun n => if Nat.eqb n 9 then KAggregated else s_kind S n; s_slot := s_slot S; s_inputs := s_inputs S; s_outputs := s_outputs S;
  s_members := fun n => if Nat.eqb n 9 then [2; 4]%nat else []; s_vfactors := s_vfactors S;
  s_has_factors := s_has_factors S; s_weights := s_weights S; s_conv := s_conv S |}.
Definition agg_data : data := {|
  d_cost := d_cost break_data; d_min := d_min break_data; d_max := fun n => if Nat.eqb n 9 then Fin 5 else d_max break_data n;
  d_factors := fun _ => []; d_minvol := fun _ => 0; d_maxvol := fun _ => Fin 0; d_vol := fun _ => 0; d_active := fun _ => true; d_days := 1 |}.

Theorem C81_member_refuted : exists S T d b a z', s_kind S a = KAggregated /\ s_members T a = s_members S a /\ In (b_self b) (s_members S a) /\ d_max d a = Fin 5 /\
  solved false T d z' /\ qsum (map (reported b (committed false T z')) (s_members S a)) == 9 /\
  forall z, solved false S d z -> qsum (map (committed false S z) (s_members S a)) <= 5.
Proof.
  exists (with_agg link_sys), (with_agg break_sys), agg_data, ex_break, 9%nat, break_answer.
  split; [reflexivity|]. split; [reflexivity|]. split; [now left|]. split; [reflexivity|].
  split; [apply solved_check_sound; vm_compute; reflexivity|]. split; [vm_compute; reflexivity|].
  intros z [P [HP F]].
  assert (wf_sys (with_agg link_sys)) as W by (apply plain_wf; try reflexivity; edges_NoDup).
  assert (comparable false (with_agg link_sys)) as C by (apply comparable_check_sound; [exact W|vm_compute; reflexivity]).
  apply (route_meets false _ _ z C P HP) in F as [_ M].
  pose proof (meets_agg _ _ _ M 9%nat (or_introl eq_refl) eq_refl) as H. unfold aggregated_flow in H. cbn [s_members with_agg Nat.eqb] in H |- *.
  change (weights_of (with_agg link_sys) 9) with [1; 1] in H. cbn [combine map qsum fst snd] in H |- *.
  change (flow_bounds (d_min agg_data 9) (d_max agg_data 9)) with (DB, Fin 0, Fin 5) in H. cbn [within bounds_ok ext_le_q q_le_ext] in H. lra.
Qed.
Print Assumptions C81_member_refuted.
