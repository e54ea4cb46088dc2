(** When the edge solver can pose its problem. *)
From Verif Require Import Base Paths Sorting Routes_model Routes_spec Routes_proofs LP_model Sys_model
  RouteLP_model RouteLP_spec RouteLP_proofs RouteLP_flow EdgeLP_model EdgeLP_spec EdgeLP_meets EdgeLP_proofs EdgeLP_decomp.
From Coq Require Import Permutation.
Open Scope Q_scope.

Lemma mapM_total {A B} (f : A -> result B) l : (forall a, In a l -> exists b, f a = Ok b) -> exists bs, mapM f l = Ok bs.
Proof.
  induction l as [|a l IH]; intros H; cbn [mapM]; [eauto|]. destruct (H a (or_introl eq_refl)) as [b ->].
  destruct IH as [bs ->]; [intros c Hc; apply H; now right|]. eauto.
Qed.

Lemma set_row_total coef t lb ub : NoDup (map fst coef) -> coef <> [] -> exists r, set_row coef t lb ub = Ok r.
Proof. intros H N. unfold set_row. rewrite (proj2 (nodupb_NoDup _) H). destruct coef; [contradiction|]. cbn [andb]. eauto. Qed.

Lemma map_nonempty {A B} (f : A -> B) l : l <> [] -> map f l <> [].
Proof. destruct l; [contradiction|discriminate]. Qed.
Lemma app_nonempty {A} (l m : list A) : l <> [] -> l ++ m <> [].
Proof. destruct l; [contradiction|discriminate]. Qed.
Lemma app_nonempty_r {A} (l m : list A) : m <> [] -> l ++ m <> [].
Proof. destruct l; [auto|discriminate]. Qed.
Lemma nonempty_In {A} (x : A) l : In x l -> l <> [].
Proof. now intros H ->. Qed.

Lemma map_fst_pair {A B} (v : B) (l : list A) : map fst (map (fun c => (c, v)) l) = l.
Proof. rewrite map_map. cbn [fst]. apply map_id. Qed.

Lemma dict_add_keys m k v j : In j (map fst (dict_add m k v)) <-> j = k \/ In j (map fst m).
Proof.
  induction m as [|[k' v'] m IH]; cbn [dict_add map fst In]; [intuition|].
  destruct (Nat.eqb_spec k' k) as [->|N]; cbn [map fst In]; [intuition|]. rewrite IH. intuition.
Qed.
Lemma dict_add_NoDup m k v : NoDup (map fst m) -> NoDup (map fst (dict_add m k v)).
Proof.
  induction m as [|[k' v'] m IH]; cbn [dict_add map fst]; intros H; [constructor; [intros []|constructor]|].
  destruct (Nat.eqb_spec k' k) as [->|N]; cbn [map fst]; [exact H|]. inversion H; subst. constructor; [|auto].
  rewrite dict_add_keys. intuition.
Qed.
Lemma dict_set_NoDup m k v : NoDup (map fst m) -> NoDup (map fst (dict_set m k v)).
Proof.
  intros H. unfold dict_set. cbn [map fst]. constructor; [|now apply NoDup_map_filter].
  intros K. apply in_map_iff in K as [[k' v'] [E K]]. apply filter_In in K as [_ K]. cbn in *. subst k'.
  rewrite Nat.eqb_refl in K. discriminate.
Qed.

Lemma virtual_dict_NoDup S v : NoDup (map fst (virtual_dict S v)).
Proof.
  unfold virtual_dict. assert (NoDup (map fst (@nil (nat * Q)))) as H by constructor. revert H. generalize (@nil (nat * Q)).
  induction (combine (s_members S v) (s_vfactors S v)) as [|[n f] l IH]; intros m H; cbn [fold_left fst snd]; [exact H|].
  apply IH. revert m H. induction (node_ecols S n) as [|c cs IHc]; intros m H; cbn [fold_left]; [exact H|].
  apply IHc. now apply dict_add_NoDup.
Qed.
Lemma agg_matrix_NoDup S a : NoDup (map fst (edge_agg_matrix S a)).
Proof.
  unfold edge_agg_matrix. assert (NoDup (map fst (@nil (nat * Q)))) as H by constructor. revert H. generalize (@nil (nat * Q)).
  induction (combine (s_members S a) (weights_of S a)) as [|[n f] l IH]; intros m H; cbn [fold_left fst snd]; [exact H|].
  apply IH. revert m H. induction (node_ecols S n) as [|c cs IHc]; intros m H; cbn [fold_left]; [exact H|].
  apply IHc. now apply dict_set_NoDup.
Qed.

Lemma dict_add_ne m k v : dict_add m k v <> [].
Proof. destruct m as [|[k' v'] m]; cbn [dict_add]; [discriminate|]. destruct (Nat.eqb k' k); discriminate. Qed.
Lemma dict_fold_ne (f : Q) cs m : m <> [] -> fold_left (fun m c => dict_add m c f) cs m <> [].
Proof. revert m. induction cs as [|c cs IH]; intros m H; cbn [fold_left]; [exact H|]. apply IH, dict_add_ne. Qed.
Lemma virtual_dict_ne S l m : m <> [] ->
  fold_left (fun m nf => fold_left (fun m c => dict_add m c (snd nf)) (node_ecols S (fst nf)) m) l m <> [].
Proof. revert m. induction l as [|nf l IH]; intros m H; cbn [fold_left]; [exact H|]. now apply IH, dict_fold_ne. Qed.
Lemma dict_set_fold_ne (f : Q) cs m : m <> [] -> fold_left (fun m c => dict_set m c f) cs m <> [].
Proof. revert m. induction cs as [|c cs IH]; intros m H; cbn [fold_left]; [exact H|]. apply IH. discriminate. Qed.
Lemma agg_dict_ne S l m : m <> [] ->
  fold_left (fun m nw => fold_left (fun m c => dict_set m c (snd nw)) (node_ecols S (fst nw)) m) l m <> [].
Proof. revert m. induction l as [|nf l IH]; intros m H; cbn [fold_left]; [exact H|]. now apply IH, dict_set_fold_ne. Qed.

Lemma in_edges_In S n c : In c (in_edges S n) <-> exists a, nth_error (s_edges S) c = Some (a, n) /\ s_domain S a = s_domain S n.
Proof.
  unfold in_edges. rewrite ecols_In. split.
  - intros [[a b] [H1 H2]]. apply andb_true_iff in H2 as [H2 H3]. apply Nat.eqb_eq in H2. apply Nat.eqb_eq in H3. cbn in *. subst. eauto.
  - intros [a [H1 H2]]. exists (a, n). split; [exact H1|]. rewrite (sd_true S a n H2). cbn. apply Nat.eqb_refl.
Qed.
Lemma out_edges_In S n c : In c (out_edges S n) <-> exists b, nth_error (s_edges S) c = Some (n, b) /\ s_domain S n = s_domain S b.
Proof.
  unfold out_edges. rewrite ecols_In. split.
  - intros [[a b] [H1 H2]]. apply andb_true_iff in H2 as [H2 H3]. apply Nat.eqb_eq in H2. apply Nat.eqb_eq in H3. cbn in *. subst. eauto.
  - intros [b [H1 H2]]. exists (n, b). split; [exact H1|]. rewrite (sd_true S n b H2). cbn. apply Nat.eqb_refl.
Qed.

Lemma edges_cols S n c : In c (in_edges S n) \/ In c (out_edges S n) -> exists e, nth_error (s_edges S) c = Some e.
Proof. rewrite in_edges_In, out_edges_In. intros [[a [H _]]|[b [H _]]]; eauto. Qed.

(** No storage is joined to itself directly, from its release to its inflow. *)
Definition no_short_circuit (S : sys) : Prop :=
  forall st a b, In a (s_inputs S st) -> In b (s_outputs S st) -> ~ In (a, b) (s_edges S).

Lemma eposed_total triv S d P : comparable triv S -> ~ cyclic (inner_edge S) -> no_short_circuit S ->
  posed triv S d = Ok P -> exists E, eposed triv S d = Ok E.
Proof.
  intros C Ac Ns HP. pose proof (reg_wf _ (cmp_regular _ _ C)) as W.
  assert (forall n, In n (s_nodes S) -> is_flow_node (s_kind S n) = true -> exists r, In r (routes triv S) /\ In n r) as On
    by (intros; eapply posed_on_route; eauto).
  (* sizes *)
  assert (exists r, In r (routes triv S)) as [r0 Hr0].
  { unfold posed in HP. destruct (all_nodes S); [discriminate|]. destruct (routes triv S) as [|r rs]; [discriminate|]. exists r. now left. }
  pose proof (routes_facts _ _ _ W Hr0) as F0.
  assert (s_edges S <> []) as Hedges.
  { pose proof (rf_chain _ _ F0) as Hc. pose proof (rf_length _ _ F0) as Hl. destruct r0 as [|a [|b r0]]; cbn in Hl; try lia.
    destruct Hc as [Hc _]. destruct (s_edges S); [contradiction|discriminate]. }
  assert (In (rfirst r0) (s_nodes S)) as Hin0 by (apply (rf_nodes _ _ F0), first_in, (rf_ne _ _ F0)).
  unfold eposed.
  destruct (all_nodes S) as [|n0 ns] eqn:En.
  { exfalso. apply all_nodes_In in Hin0. rewrite En in Hin0. contradiction. }
  destruct (s_edges S) as [|e0 es] eqn:Ee; [congruence|].
  destruct (of_kind S is_flow_node) as [|m0 ms] eqn:Ek.
  { exfalso. assert (In (rfirst r0) (of_kind S is_flow_node)) as K; [|rewrite Ek in K; contradiction].
    apply of_kind_In. split; [exact Hin0|]. now rewrite (rf_first _ _ F0). }
  rewrite <- Ek. rewrite <- Ee in *. clear En n0 ns m0 ms e0 es Ek Ee.
  (* columns of a node *)
  assert (forall n, In n (s_nodes S) -> is_flow_node (s_kind S n) = true -> ecols_checked S n = Ok (node_ecols S n)) as Hcols.
  { intros n Hn Hk. unfold ecols_checked.
    assert (match s_kind S n with KInput => match in_edges S n with [] => false | _ => true end
            | KOutput => match out_edges S n with [] => false | _ => true end | _ => false end = false) as ->.
    { destruct (s_kind S n) eqn:K; try reflexivity.
      - destruct (in_edges S n) as [|c cs] eqn:E; [reflexivity|]. exfalso.
        assert (In c (in_edges S n)) as Hc by (rewrite E; now left). apply in_edges_In in Hc as [a [H1 H2]].
        apply nth_error_In in H1. destruct (reg_clean _ (cmp_regular _ _ C) a n H1 H2) as [N _]. contradiction.
      - destruct (out_edges S n) as [|c cs] eqn:E; [reflexivity|]. exfalso.
        assert (In c (out_edges S n)) as Hc by (rewrite E; now left). apply out_edges_In in Hc as [a [H1 H2]].
        apply nth_error_In in H1. destruct (reg_clean _ (cmp_regular _ _ C) n a H1 H2) as [_ N]. contradiction. }
    destruct (On n Hn Hk) as [r [Hr Hin]]. pose proof (routes_facts _ _ _ W Hr) as F.
    assert (exists c, In c (node_ecols S n)) as [c Hc]; [|destruct (node_ecols S n); [contradiction|reflexivity]].
    unfold node_ecols. destruct (s_kind S n) eqn:K; try discriminate.
    - destruct (succ_unique r n (rf_nodup _ _ F) Hin) as [p [Hp E]].
      { intros ->. rewrite (rf_last _ _ F) in K. discriminate. }
      destruct (pair_inner triv S r n p W Hr) as [H1 H2]; [rewrite E; apply Nat.eqb_refl|].
      apply In_nth_error in H1 as [c Hc]. exists c. apply out_edges_In. eauto.
    - destruct (pred_unique r n (rf_nodup _ _ F) Hin) as [p [Hp E]].
      { intros ->. rewrite (rf_first _ _ F) in K. discriminate. }
      destruct (pair_inner triv S r p n W Hr) as [H1 H2]; [rewrite E; apply Nat.eqb_refl|].
      apply In_nth_error in H1 as [c Hc]. exists c. apply in_edges_In. eauto.
    - destruct (succ_unique r n (rf_nodup _ _ F) Hin) as [p [Hp E]].
      { intros ->. rewrite (rf_last _ _ F) in K. discriminate. }
      destruct (pair_inner triv S r n p W Hr) as [H1 H2]; [rewrite E; apply Nat.eqb_refl|].
      apply In_nth_error in H1 as [c Hc]. exists c. apply out_edges_In. eauto. }
  assert (forall n, In n (s_nodes S) -> is_flow_node (s_kind S n) = true -> node_ecols S n <> []) as Hne.
  { intros n Hn Hk E. specialize (Hcols n Hn Hk). unfold ecols_checked in Hcols. rewrite E in Hcols.
    destruct (match s_kind S n with KInput => _ | KOutput => _ | _ => false end); discriminate. }
  pose proof (posed_inv _ _ _ _ HP) as PF.
  (* rows *)
  assert (exists r1, concatR (mapM (edge_non_storage_rows S d (cross_domain_routes triv S)) (of_kind S is_flow_node)) = Ok r1) as [r1 ->].
  { destruct (mapM_total (edge_non_storage_rows S d (cross_domain_routes triv S)) (of_kind S is_flow_node)) as [l ->]; [|cbn; eauto].
    intros n Hn. apply of_kind_In in Hn as [Hn Hk]. unfold edge_non_storage_rows. rewrite (Hcols n Hn Hk). cbn [bindR].
    destruct (flow_bounds (d_min d n) (d_max d n)) as [[t lb] ub].
    destruct (set_row_total (map (fun c => (c, 1)) (node_ecols S n)) t lb ub) as [r1 ->]; [rewrite map_fst_pair; apply node_ecols_NoDup|now apply map_nonempty, Hne|].
    cbn [bindR]. destruct (in_cross (cross_domain_routes triv S) n) eqn:Ex; [|eauto].
    apply in_cross_iff in Ex as [Ho _]; [|exact W|exact Hn].
    match goal with |- context [set_row ?c _ _ _] => destruct (set_row_total c FX (Fin 0) (Fin 0)) as [r2 ->]; [| |cbn; eauto] end.
    2:{ apply app_nonempty. now apply map_nonempty, Hne. }
    rewrite map_app, map_fst_pair, map_map. cbn [fst].
    destruct (cross_spec triv S W) as [Cn Ci].
    assert (forall c, In c (map fst (cross_ecols S (cross_domain_routes triv S) n)) <->
       exists i, In [n; i] (cross_domain_routes triv S) /\ In c (out_edges S i)) as Hk1.
    { intros c. unfold cross_ecols. rewrite in_map_iff. split.
      - intros [[c' v] [E H]]. cbn in E. subst c'. apply in_flat_map in H as [r [Hr H]].
        pose proof (proj1 (Ci r) Hr) as [o [i [-> _]]]. destruct (Nat.eqb_spec o n) as [->|]; [|contradiction].
        apply in_map_iff in H as [c' [E H]]. injection E as -> _. eauto.
      - intros [i [H1 H2]]. exists (c, s_conv S i). split; [reflexivity|]. apply in_flat_map. exists [n; i]. split; [exact H1|].
        rewrite Nat.eqb_refl. apply in_map_iff. eauto. }
    change (map (fun x : nat * Q => fst x) (cross_ecols S (cross_domain_routes triv S) n)) with (map fst (cross_ecols S (cross_domain_routes triv S) n)).
    apply NoDup_app_intro; [apply node_ecols_NoDup| |].
    - assert (map fst (cross_ecols S (cross_domain_routes triv S) n) =
        flat_map (fun r => match r with [o'; i] => if Nat.eqb o' n then out_edges S i else [] | _ => [] end) (cross_domain_routes triv S)) as ->.
      { unfold cross_ecols. clear. induction (cross_domain_routes triv S) as [|r l IH]; cbn [flat_map map]; [reflexivity|].
        rewrite map_app, IH. f_equal. destruct r as [|o [|i [|z r]]]; try reflexivity. destruct (Nat.eqb o n); [apply map_fst_pair|reflexivity]. }
      apply NoDup_flat_map; [exact Cn| |].
      + intros r _. destruct r as [|o [|i [|z r]]]; try constructor. destruct (Nat.eqb o n); [apply ecols_NoDup|constructor].
      + intros r q c Hr Hq H1 H2. apply Ci in Hr as [o [i [-> _]]]. apply Ci in Hq as [o' [i' [-> _]]].
        destruct (Nat.eqb_spec o n) as [->|]; [|contradiction]. destruct (Nat.eqb_spec o' n) as [->|]; [|contradiction].
        apply out_edges_In in H1 as [b [H1 _]]. apply out_edges_In in H2 as [b' [H2 _]]. congruence.
    - intros c Hc Hin. apply Hk1 in Hin as [i [Hr Hi]]. apply Ci in Hr as [o [i' [E [_ [_ [_ [_ [_ Hd]]]]]]]]. injection E as <- <-.
      unfold node_ecols in Hc. rewrite Ho in Hc. apply in_edges_In in Hc as [a [H1 H2]]. apply out_edges_In in Hi as [b [H3 H4]].
      congruence. }
  cbn [bindR].
  destruct (mapM_total (balance_row S) (of_kind S is_link)) as [r2 ->].
  { intros n Hn. apply set_row_total.
    2:{ apply of_kind_In in Hn as [Hn Hk]. apply app_nonempty_r, map_nonempty. specialize (Hne n Hn). unfold node_ecols in Hne.
        destruct (s_kind S n); try discriminate. now apply Hne. }
    rewrite map_app, !map_fst_pair. apply NoDup_app_intro; try apply ecols_NoDup.
    intros c H1 H2. apply in_edges_In in H1 as [a [H1 H3]]. apply out_edges_In in H2 as [b [H2 H4]].
    rewrite H1 in H2. injection H2 as -> ->. apply Ac. exists b. apply plus_one. split; [now apply nth_error_In in H1|reflexivity]. }
  cbn [bindR].
  destruct (mapM_total (edge_storage_row S d) (of_kind S is_storage)) as [r3 ->].
  { intros st Hst. unfold edge_storage_row. destruct (storage_bounds _ _ _ _) as [[t lb] ub]. apply set_row_total.
    2:{ apply of_kind_In in Hst as [Hst Hk]. assert (s_kind S st = KStorage) as Hk' by (destruct (s_kind S st); try discriminate; reflexivity).
        destruct (pf_storage _ _ _ _ PF st Hst Hk') as [r [Hr _]]. unfold storage_row in Hr. destruct (storage_bounds _ _ _ _) as [[t' lb'] ub'].
        apply set_row_nonempty in Hr.
        assert (s_outputs S st <> [] \/ s_inputs S st <> []) as [N|N].
        { destruct (s_outputs S st) eqn:Eo, (s_inputs S st) eqn:Ei; try (left; discriminate); try (right; discriminate). exfalso. apply Hr.
          unfold cols. cbn [memb existsb andb]. clear. induction (enumerate (routes triv S)) as [|c l IH]; [reflexivity|exact IH]. }
        - apply app_nonempty, map_nonempty. destruct (s_outputs S st) as [|o l] eqn:Eo; [contradiction|]. cbn [flat_map]. apply app_nonempty.
          destruct (wf_outputs_nodes _ W o st) as [Ho [Ko _]]; [rewrite Eo; now left|]. specialize (Hne o Ho). unfold node_ecols in Hne. rewrite Ko in Hne. now apply Hne.
        - apply app_nonempty_r, map_nonempty. destruct (s_inputs S st) as [|o l] eqn:Eo; [contradiction|]. cbn [flat_map]. apply app_nonempty.
          destruct (wf_inputs_nodes _ W o st) as [Ho [Ko _]]; [rewrite Eo; now left|]. specialize (Hne o Ho). unfold node_ecols in Hne. rewrite Ko in Hne. now apply Hne. }
    rewrite map_app, !map_fst_pair. apply NoDup_app_intro.
    - apply NoDup_flat_map; [exact (wf_outputs_NoDup _ W st)|intros; apply ecols_NoDup|].
      intros n m c _ _ H1 H2. apply in_edges_In in H1 as [a [H1 _]]. apply in_edges_In in H2 as [b [H2 _]]. congruence.
    - apply NoDup_flat_map; [exact (wf_inputs_NoDup _ W st)|intros; apply ecols_NoDup|].
      intros n m c _ _ H1 H2. apply out_edges_In in H1 as [a [H1 _]]. apply out_edges_In in H2 as [b [H2 _]]. congruence.
    - intros c H1 H2. apply in_flat_map in H1 as [o [Ho H1]]. apply in_flat_map in H2 as [i [Hi H2]].
      apply in_edges_In in H1 as [a [H1 _]]. apply out_edges_In in H2 as [b [H2 _]]. rewrite H1 in H2. injection H2 as -> ->.
      apply (Ns st i b Hi Ho). now apply nth_error_In in H1. }
  cbn [bindR].
  destruct (mapM_total (edge_virtual_row S d) (of_kind S is_virtual)) as [r4 ->].
  { intros v Hv. unfold edge_virtual_row. destruct (virtual_bounds _ _ _ _ _) as [[t lb] ub]. apply set_row_total.
    2:{ apply of_kind_In in Hv as [Hv Hk]. assert (s_kind S v = KVirtual) as Hk' by (destruct (s_kind S v); try discriminate; reflexivity).
        destruct (pf_virtual _ _ _ _ PF v Hv Hk') as [r [Hr _]]. unfold virtual_row in Hr. destruct (virtual_bounds _ _ _ _ _) as [[t' lb'] ub'].
        apply set_row_nonempty in Hr. destruct (cmp_virtual _ _ C v Hv Hk') as [_ Hl].
        destruct (s_members S v) as [|m ms] eqn:Em.
        { exfalso. apply Hr. clear - Em. induction (enumerate (routes triv S)) as [|c l IH]; [reflexivity|]. cbn [flat_map]. rewrite IH.
          assert (virtual_entry S v (snd c) = None) as ->.
          { unfold virtual_entry. rewrite Em. cbn [RouteLP_model.index_of]. clear. induction (snd c) as [|z q IHq]; [reflexivity|exact IHq]. }
          reflexivity. }
        destruct (s_vfactors S v) as [|f fs] eqn:Ef; [discriminate|].
        apply map_nonempty. unfold virtual_dict. rewrite Em, Ef. cbn [combine fold_left fst snd]. apply virtual_dict_ne.
        destruct (reg_members _ (cmp_regular _ _ C) v m Hv (or_intror Hk')) as [Hm Km]; [rewrite Em; now left|].
        specialize (Hne m Hm Km). destruct (node_ecols S m) as [|c cs]; [contradiction|]. cbn [fold_left dict_add]. apply dict_fold_ne. discriminate. }
    rewrite map_map. cbn [fst]. apply virtual_dict_NoDup. }
  cbn [bindR].
  assert (forall a, In a (s_nodes S) -> s_kind S a = KAggregated -> edges_apart S a) as Ap by (intros; eapply members_apart; eauto).
  assert (exists r5, concatR (mapM (edge_factor_rows S d) (filter (s_has_factors S) (of_kind S is_aggregated))) = Ok r5) as [r5 ->].
  { destruct (mapM_total (edge_factor_rows S d) (filter (s_has_factors S) (of_kind S is_aggregated))) as [l ->]; [|cbn; eauto].
    intros a Ha. apply filter_In in Ha as [Ha Hf]. apply of_kind_In in Ha as [Ha Hk].
    assert (s_kind S a = KAggregated) as Hk' by (destruct (s_kind S a); try discriminate; reflexivity).
    specialize (Ap a Ha Hk'). unfold edge_factor_rows, edges_apart in *.
    destruct (pf_factor _ _ _ _ PF a Ha Hk' Hf) as [l [Hl _]]. unfold factor_rows in Hl.
    destruct (s_members S a) as [|m0 ms] eqn:Em; [discriminate|]. destruct (factors_usable (m0 :: ms) (d_factors d a)); [|discriminate].
    apply mapM_total. intros [m f] Hin. cbn [fst snd]. apply set_row_total.
    2:{ apply app_nonempty, map_nonempty. destruct (reg_members _ (cmp_regular _ _ C) a m0 Ha (or_introl Hk')) as [Hm Km]; [rewrite Em; now left|]. now apply Hne. }
    rewrite map_app, !map_fst_pair.
    apply NoDup_app_intro; try apply node_ecols_NoDup. intros c H1 H2.
    apply in_combine_l in Hin. apply In_nth_error in Hin as [j Hj].
    specialize (Ap 0%nat (Datatypes.S j) m0 m c eq_refl Hj H1 H2). discriminate. }
  cbn [bindR].
  destruct (mapM_total (edge_agg_row S d) (of_kind S is_aggregated)) as [r6 ->]; [|cbn; eauto].
  intros a Ha. unfold edge_agg_row. destruct (flow_bounds _ _) as [[t lb] ub] eqn:Eb. apply set_row_total.
  2:{ apply of_kind_In in Ha as [Ha Hk]. assert (s_kind S a = KAggregated) as Hk' by (destruct (s_kind S a); try discriminate; reflexivity).
      destruct (pf_agg _ _ _ _ PF a Ha Hk') as [r [Hr _]]. unfold agg_row in Hr. rewrite Eb in Hr. apply set_row_nonempty in Hr.
      assert (edge_agg_matrix S a <> []) as N.
      { pose proof (reg_weights _ (cmp_regular _ _ C) a Ha Hk') as Hl.
        unfold edge_agg_matrix. destruct (s_members S a) as [|m ms] eqn:Em.
        - exfalso. apply Hr. unfold agg_matrix. rewrite Em. reflexivity.
        - destruct (weights_of S a) as [|w ws]; [discriminate|]. cbn [combine fold_left fst snd]. apply agg_dict_ne.
          destruct (reg_members _ (cmp_regular _ _ C) a m Ha (or_introl Hk')) as [Hm Km]; [rewrite Em; now left|].
          specialize (Hne m Hm Km). destruct (node_ecols S m) as [|c cs]; [contradiction|]. cbn [fold_left]. apply dict_set_fold_ne. unfold dict_set. discriminate. }
      intros Z. apply N. pose proof (isort_perm (fun x y : nat * Q => Nat.leb (fst x) (fst y)) (edge_agg_matrix S a)) as Pm. rewrite Z in Pm.
      apply Permutation_sym in Pm. now apply Permutation_nil in Pm. }
  eapply Permutation_NoDup; [apply Permutation_map, isort_perm|]. apply agg_matrix_NoDup.
Qed.
