(** C84: MultiSplitLink, RiverSplit and RiverSplitWithGauge share out the water. *)
From Verif Require Import Base Paths Sorting Routes_model LP_model Sys_model RouteLP_model RouteLP_spec RouteLP_proofs RouteLP_flow RouteLP_props LP_check LP_optimal
  EdgeLP_model EdgeLP_spec EdgeLP_proofs EdgeLP_limits EdgeLP_check EdgeLP_props Connect_model Connect_spec Connect_proofs Split_model Split_spec Split_proofs.
Local Open Scope nat_scope.
Local Open Scope list_scope.
Local Open Scope Q_scope.

(** The constructor makes the node as it is drawn in the documentation, and no program that connects and disconnects other nodes changes that. *)
Theorem C84_inside : forall w p names ops, (forall a b, In (a, b) (edges w) -> ~ In a (insides p) /\ ~ In b (insides p)) ->
  leaves_alone (new_split w p names) (sp_self p) (fun n => In n (insides p)) ops ->
  split_edges (edges (perform (new_split w p names) ops)) p.
Proof. exact split_edges_kept. Qed.
Print Assumptions C84_inside.

(** What comes in leaves through the main slot or one of the extra slots; an extra slot gives at most what its sublink carries. *)
Definition through_ok (p : split) (fl : nat -> Q) : Prop :=
  fl (sp_output p) == qsum (map fl (sublinks p)) /\
  fl (sp_output p) == fl (sp_input p) + qsum (map (fun x => fl (x_input x)) (sp_slots p)) /\
  (forall x, In x (sp_slots p) -> 0 <= fl (x_input x) <= fl (x_link x)) /\
  qsum (map fl (sp_steps p)) <= fl (sp_input p).
Lemma flows_through p fl : NoDup (insides p) -> flows p fl -> through_ok p fl.
Proof.
  intros N F. assert (forall x, In x (sp_slots p) -> 0 <= fl (x_input x)) as NN.
  { intros x Hx. apply (fw_nonneg _ _ F). unfold insides. cbn. rewrite !in_app_iff. do 5 right. now apply in_map. }
  assert (fl (sp_output p) == fl (sp_input p) + qsum (map (fun x => fl (x_input x)) (sp_slots p))) as E.
  { rewrite (fw_out _ _ F), (fw_sub _ _ F), (fw_in _ _ F). apply Qplus_comp; [reflexivity|]. apply qsum_map_ext. intros x Hx. now apply (fw_extra _ _ F). }
  split; [exact (fw_out _ _ F)|]. split; [exact E|]. split.
  - intros x Hx. split; [now apply NN|]. destruct (fw_extra _ _ F x Hx) as [A B]. now rewrite <- A.
  - assert (qsum (map (fun x => fl (x_input x)) (sp_slots p)) <= qsum (map fl (map x_link (sp_slots p)))) as L.
    { rewrite map_map. apply qsum_map_le. intros x Hx. destruct (fw_extra _ _ F x Hx) as [A B]. now rewrite <- A. }
    pose proof (fw_out _ _ F) as O. unfold sublinks in O. rewrite map_app, qsum_app in O. lra.
Qed.
Theorem C84_through : forall triv S d x p, wf_sys S -> split_in S p -> solved triv S d x -> through_ok p (committed triv S x).
Proof. intros triv S d x p W I H. apply flows_through; [exact (si_apart _ _ I)|]. now apply route_flows with (d := d). Qed.
Print Assumptions C84_through.
Theorem C84_edge_through : forall triv S d y p, regular S -> inner_only S y -> split_in S p -> edge_solved triv S d y -> through_ok p (ecommitted S y).
Proof. intros triv S d y p R IO I H. apply flows_through; [exact (si_apart _ _ I)|]. now apply edge_flows with (triv := triv) (d := d). Qed.
Print Assumptions C84_edge_through.

(** The last step and the sublinks of the slots that have a factor carry water in the ratio of the factors. *)
Theorem C84_ratio : forall triv S d x p fs, wf_sys S -> split_in S p -> split_factors S d p fs -> solved triv S d x ->
  forall m f m' f', In (m, f) (agg_pairs p fs) -> In (m', f') (agg_pairs p fs) -> committed triv S x m * f' == committed triv S x m' * f.
Proof. exact route_ratio. Qed.
Print Assumptions C84_ratio.
Theorem C84_edge_ratio : forall triv S d y p fs, regular S -> inner_only S y -> split_in S p -> split_factors S d p fs -> edge_solved triv S d y ->
  forall m f m' f', In (m, f) (agg_pairs p fs) -> In (m', f') (agg_pairs p fs) -> ecommitted S y m * f' == ecommitted S y m' * f.
Proof. exact edge_ratio. Qed.
Print Assumptions C84_edge_ratio.

(** With a positive factor for every slot: of the flow beyond the steps before the last ([pre]: none for RiverSplit, the minimum residual flow for
    RiverSplitWithGauge) an extra slot gives at most its share, and the main slot at least its share. *)
Definition share_ok (p : split) (pre : list nat) (f0 : Q) (gs : list Q) (fl : nat -> Q) : Prop :=
  let beyond := fl (sp_output p) - qsum (map fl pre) in
  0 <= beyond /\
  (forall j x g, nth_error (sp_slots p) j = Some x -> nth_error gs j = Some g ->
     fl (x_link x) == g / qsum (f0 :: gs) * beyond /\ fl (x_input x) <= g / qsum (f0 :: gs) * beyond) /\
  f0 / qsum (f0 :: gs) * beyond <= fl (sp_input p) - qsum (map fl pre).
Lemma share_flows p pre s0 f0 gs fl : NoDup (insides p) -> sp_steps p = pre ++ [s0] -> List.length gs = List.length (sp_slots p) ->
  (forall f, In f (f0 :: gs) -> 0 < f) -> flows p fl ->
  (forall m f m' f', In (m, f) (agg_pairs p (map Some (f0 :: gs))) -> In (m', f') (agg_pairs p (map Some (f0 :: gs))) -> fl m * f' == fl m' * f) ->
  share_ok p pre f0 gs fl.
Proof.
  intros N Es Lg Pos F Rt. assert (0 < f0) as P0 by (apply Pos; now left).
  assert (0 < qsum (f0 :: gs)) as PF.
  { cbn [qsum]. assert (0 <= qsum gs); [|lra]. clear - Pos. assert (forall g, In g gs -> 0 < g) as G by (intros; apply Pos; now right).
    induction gs as [|g gs IH]; cbn [qsum]; [lra|]. assert (0 < g) by (apply G; now left). assert (0 <= qsum gs); [|lra]. apply IH; [|intros; apply G; now right].
    intros f [<-|Hf]; [apply Pos; now left|apply G; now right]. }
  destruct (shares p fl pre s0 f0 gs Es Lg F) as [S0 Sj]; [lra|exact Rt|]. destruct (flows_through p fl N F) as [_ [_ [T3 T4]]].
  unfold share_ok. cbv zeta. set (b := fl (sp_output p) - qsum (map fl pre)) in *.
  assert (0 <= fl s0) as Ns. { apply (fw_nonneg _ _ F). unfold insides, sublinks. rewrite Es. cbn. rewrite !in_app_iff. cbn. tauto. }
  assert (forall v g, v * qsum (f0 :: gs) == g * b -> v == g / qsum (f0 :: gs) * b) as Dv.
  { intros v g E. assert (v == v * qsum (f0 :: gs) / qsum (f0 :: gs)) as -> by (field; lra). rewrite E. field. lra. }
  split; [|split].
  - assert (0 <= f0 * b) as X. { rewrite <- S0. apply Qmult_le_0_compat; lra. }
    rewrite <- (Qmult_0_r f0) in X. now apply Qmult_le_l in X.
  - intros j x g Hx Hg. pose proof (Dv _ _ (Sj j x g Hx Hg)) as E. split; [exact E|]. rewrite <- E. apply T3. now apply nth_error_In in Hx.
  - rewrite <- (Dv _ _ S0). rewrite Es, map_app, qsum_app in T4. cbn [map qsum] in T4. lra.
Qed.
Theorem C84_share : forall triv S d x p pre s0 f0 gs, wf_sys S -> split_in S p -> split_factors S d p (map Some (f0 :: gs)) -> solved triv S d x ->
  sp_steps p = pre ++ [s0] -> List.length gs = List.length (sp_slots p) -> (forall f, In f (f0 :: gs) -> 0 < f) -> share_ok p pre f0 gs (committed triv S x).
Proof.
  intros triv S d x p pre s0 f0 gs W I F H Es Lg Pos. apply (share_flows p pre s0); auto; [exact (si_apart _ _ I)|now apply route_flows with (d := d)|].
  now apply (route_ratio triv S d x p).
Qed.
Print Assumptions C84_share.
Theorem C84_edge_share : forall triv S d y p pre s0 f0 gs, regular S -> inner_only S y -> split_in S p -> split_factors S d p (map Some (f0 :: gs)) -> edge_solved triv S d y ->
  sp_steps p = pre ++ [s0] -> List.length gs = List.length (sp_slots p) -> (forall f, In f (f0 :: gs) -> 0 < f) -> share_ok p pre f0 gs (ecommitted S y).
Proof.
  intros triv S d y p pre s0 f0 gs R IO I F H Es Lg Pos. apply (share_flows p pre s0); auto; [exact (si_apart _ _ I)|now apply edge_flows with (triv := triv) (d := d)|].
  now apply (edge_ratio triv S d y p).
Qed.
Print Assumptions C84_edge_share.

(** Which arguments are accepted: at least one extra slot; a name and a factor for each slot; a cost and a maximum for each step. *)
Theorem C84_accepted : forall A B C nsteps extra (names : option (list A)) (costs : option (list B)) (maxs : option (list C)) factors,
  split_accepted nsteps extra names costs maxs factors = true <->
  (exists k, (extra = Z.of_nat (S k))%Z /\
    (forall l, names = Some l -> List.length l = S (S k)) /\ (forall l, factors = Some l -> List.length l = S (S k)) /\
    (forall l, costs = Some l -> List.length l = nsteps) /\ (forall l, maxs = Some l -> List.length l = nsteps)).
Proof.
  intros A B C nsteps extra names costs maxs factors. unfold split_accepted. rewrite !andb_true_iff, Z.leb_le.
  assert (forall X (n : Z) m (o : option (list X)), n = Z.of_nat m ->
    (match o with None => true | Some l => Z.eqb (Z.of_nat (List.length l)) n end = true <-> forall l, o = Some l -> List.length l = m)) as K.
  { intros X n m [l|] ->; [rewrite Z.eqb_eq|]; split.
    - intros E l' [= <-]. lia.
    - intros E. rewrite (E l eq_refl). reflexivity.
    - intros _ l' E. discriminate.
    - reflexivity. }
  split.
  - intros [[[[H1 H2] H3] H4] H5]. exists (Z.to_nat (extra - 1)). assert (extra = Z.of_nat (S (Z.to_nat (extra - 1)))) as E by lia. split; [exact E|].
    rewrite (K A (extra + 1)%Z (S (S (Z.to_nat (extra - 1))))) in H2 by lia. rewrite (K _ (extra + 1)%Z (S (S (Z.to_nat (extra - 1))))) in H5 by lia.
    rewrite (K B _ nsteps) in H3 by reflexivity. rewrite (K C _ nsteps) in H4 by reflexivity. auto.
  - intros [k [E [H2 [H5 [H3 H4]]]]].
    rewrite (K A (extra + 1)%Z (S (S k))) by lia. rewrite (K _ (extra + 1)%Z (S (S k)) factors) by lia.
    rewrite (K B _ nsteps) by reflexivity. rewrite (K C _ nsteps) by reflexivity. repeat split; auto; lia.
Qed.
Print Assumptions C84_accepted.
Example C84_accepted_example : split_accepted 2 1 (Some [1%nat; 2%nat]) (Some [1%nat; 2%nat]) (@None (list nat)) (Some [Some 3; Some 1]) = true /\
  split_accepted 2 0 (@None (list nat)) (@None (list nat)) (@None (list nat)) None = false /\
  split_accepted 2 1 (@None (list nat)) (@None (list nat)) (@None (list nat)) (Some [Some 3]) = false.
Proof. repeat split. Qed.

(** ** The model of tests/test_river.py: a catchment of 100, a minimum residual flow of 40, and of the rest a quarter may be abstracted. *)
Definition ex_split : split := MultiSplit 2 3 4 5 [6; 7]%nat [Extra 8 9 10] 11.
Definition ex_world : world := World (fun _ => 0%nat) (fun _ => Plain) [] (fun _ => false).
Definition ex_names : list slot := [Name "river"; Name "abstraction"].
Definition ex_ops : list op := [Connect 1 2 None None; Connect 2 12 (Some (Name "river")) None; Connect 2 13 (Some (Name "abstraction")) None]%nat.
Definition split_sys : sys := {|
  s_nodes := [1; 2; 3; 4; 5; 6; 7; 8; 9; 10; 11; 12; 13]%nat;
  s_edges := edges (perform (new_split ex_world ex_split ex_names) ex_ops);
  s_name := fun n => n; s_fqn := fun n => n; s_domain := fun n => match n with 5 | 6 | 7 | 8 | 9 => 1 | _ => 0 end%nat;
  s_kind := fun n => match n with 1 | 4 | 6 | 7 | 8 | 10 => KInput | 3 | 5 | 9 | 12 | 13 => KOutput | 11 => KAggregated | _ => KOther end%nat;
  s_slot := fun _ => NoSlot; s_inputs := fun _ => []; s_outputs := fun _ => [];
  s_members := fun n => match n with 11 => map fst (agg_pairs ex_split (map Some [3%Q; 1%Q])) | _ => [] end%nat; s_vfactors := fun _ => [];
  s_has_factors := fun n => Nat.eqb n 11; s_weights := fun _ => None; s_conv := fun _ => 1 |}.
Definition split_data (wanted : Q) : data := {|
  d_cost := fun n => match n with 6%nat => - (100) | 13%nat => - (10) | _ => 0 end;
  d_min := fun n => match n with 1%nat => Fin 100 | _ => Fin 0 end;
  d_max := fun n => match n with 1%nat => Fin 100 | 6%nat => Fin 40 | 13%nat => Fin wanted | _ => PInf end;
  d_factors := fun n => match n with 11 => map snd (agg_pairs ex_split (map Some [3%Q; 1%Q])) | _ => [] end%nat;
  d_minvol := fun _ => 0; d_maxvol := fun _ => Fin 0; d_vol := fun _ => 0; d_active := fun _ => true; d_days := 1 |}.
Lemma ex_leaves : leaves_alone (new_split ex_world ex_split ex_names) (sp_self ex_split) (fun n => In n (insides ex_split)) ex_ops.
Proof.
  split.
  - intros o n Ho Hn H. cbn in H, Ho. repeat (destruct Ho as [<-|Ho]; [cbn in Hn; intuition (subst; discriminate)|]); contradiction.
  - intros n s a Hs Hi H.
    assert (kind_of (new_split ex_world ex_split ex_names) n = Plain \/ kind_of (new_split ex_world ex_split ex_names) n = Bare) as K.
    { cbn in Hs. cbn. destruct (Nat.eqb n 2) eqn:E; [apply Nat.eqb_eq in E; contradiction|]. repeat match goal with |- context [if ?b then _ else _] => destruct b end; tauto. }
    destruct K as [K|K]; rewrite K in H; cbn in H; [|tauto]. assert (a = n) as -> by tauto. exact Hi.
Qed.
Example C84_example_inside : split_edges (edges (perform (new_split ex_world ex_split ex_names) ex_ops)) ex_split.
Proof. apply C84_inside; [intros a b []|exact ex_leaves]. Qed.
Lemma ex_edges : s_edges split_sys = [(5, 4); (6, 5); (3, 6); (7, 5); (3, 7); (8, 5); (3, 8); (9, 10); (8, 9); (1, 3); (4, 12); (10, 13)]%nat.
Proof. vm_compute. reflexivity. Qed.
Lemma ex_split_wf : wf_sys split_sys.
Proof.
  apply wf_no_storage; try reflexivity.
  - cbn. repeat constructor; cbn; intuition discriminate.
  - rewrite ex_edges. repeat constructor; cbn; intuition discriminate.
  - rewrite ex_edges. cbn. intros a b H. repeat (destruct H as [H|H]; [injection H as <- <-; cbn; tauto|]). contradiction.
Qed.
Lemma ex_split_in : split_in split_sys ex_split.
Proof.
  constructor.
  - cbn. repeat constructor; cbn; intuition discriminate.
  - discriminate.
  - cbn. intros n H. tauto.
  - cbn. repeat split; try reflexivity; intuition (subst; reflexivity).
  - cbn. repeat split; try discriminate; intuition (subst; try discriminate; reflexivity).
  - exact C84_example_inside.
  - reflexivity.
Qed.
Lemma ex_split_factors w : split_factors split_sys (split_data w) ex_split (map Some [3; 1]).
Proof. constructor; try reflexivity. cbn. tauto. Qed.

(** Routes 1-3, 4-12, 6-5, 7-5, 8-5, 8-9, 10-13. *)
Definition ex_flow : nat -> Q := fun c => nth c [100; 85; 40; 45; 0; 15; 15] 0.
Example C84_example : solved_optimally false split_sys (split_data 50) ex_flow /\
  map (committed false split_sys ex_flow) [3; 6; 7; 8; 12; 13]%nat = [100; 40; 45; 15; 85; 15].
Proof.
  split; [apply (solved_optimally_check_sound _ _ _ _ [- (5 # 2); 0; - (5 # 2); 0; 0; 0; - (195 # 2); 0; 0; 0; - (10); 0; 0; 0; 5 # 2; 0])|]; vm_compute; reflexivity.
Qed.
Example C84_example_share : share_ok ex_split [6%nat] 3 [1] (committed false split_sys ex_flow).
Proof.
  apply (C84_share false split_sys (split_data 50) ex_flow ex_split [6%nat] 7%nat 3 [1] ex_split_wf ex_split_in (ex_split_factors 50)); try reflexivity.
  - destruct (proj1 C84_example) as [P [HP [HF _]]]. exact (ex_intro _ P (conj HP HF)).
  - intros f [<-|[<-|[]]]; reflexivity.
Qed.

(** The ratio is that of the sublinks, not of the slots: what a slot does not take of its share stays in the river, also in the cheapest answer. *)
Theorem C84_exact_share_refuted : exists S d x p pre s0 f0 g e, wf_sys S /\ split_in S p /\ split_factors S d p (map Some [f0; g]) /\ solved_optimally false S d x /\
  sp_steps p = pre ++ [s0] /\ sp_slots p = [e] /\ 0 < f0 /\ 0 < g /\
  ~ committed false S x (x_input e) == g / (f0 + g) * (committed false S x (sp_output p) - qsum (map (committed false S x) pre)).
Proof.
  exists split_sys, (split_data 10), (fun c => nth c [100; 90; 40; 45; 5; 10; 10] 0), ex_split, [6%nat], 7%nat, 3, 1, (Extra 8 9 10).
  split; [exact ex_split_wf|]. split; [exact ex_split_in|]. split; [apply ex_split_factors|].
  split; [apply (solved_optimally_check_sound _ _ _ _ [0; 0; 0; 0; 0; 0; - (100); 0; 0; 0; 0; 0; 0; - (10); 0; 0]); vm_compute; reflexivity|].
  split; [reflexivity|]. split; [reflexivity|]. split; [reflexivity|]. split; [reflexivity|]. intros Z. vm_compute in Z. discriminate.
Qed.
Print Assumptions C84_exact_share_refuted.
