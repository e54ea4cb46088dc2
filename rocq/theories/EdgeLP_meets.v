(** Either problem, read as limits on the flows that the nodes report. *)
From Verif Require Import Base Paths Sorting Routes_model Routes_spec Routes_proofs LP_model Sys_model
  RouteLP_model RouteLP_spec RouteLP_proofs RouteLP_flow EdgeLP_model EdgeLP_spec.
From Coq Require Import Permutation.
Open Scope Q_scope.

(** ** Shared *)
Lemma feeds_iff S o i : feeds S o i = true <->
  s_kind S i = KInput /\ s_domain S o <> s_domain S i /\ In (o, i) (s_edges S).
Proof. exact (supplies_iff S o i). Qed.

Lemma within_ext b v w : v == w -> within b v <-> within b w.
Proof. destruct b as [[t lb] ub]. intros E. split; apply bounds_ok_ext; [exact E|now symmetry]. Qed.

(** Rows about pairs of nodes become sums over the nodes fed. *)
Lemma cross_sum triv S o (g : nat -> Q) : wf_sys S -> In o (s_nodes S) -> s_kind S o = KOutput ->
  qsum (map (fun r => bq (Nat.eqb (rfirst r) o) * g (nth 1 r 0%nat)) (cross_domain_routes triv S)) ==
  qsum (map g (filter (feeds S o) (s_nodes S))).
Proof.
  intros W Ho Hk. destruct (cross_spec triv S W) as [Cn Ci].
  rewrite <- qsum_filter.
  rewrite <- (map_map (fun r => nth 1 r 0%nat) g).
  apply qsum_Permutation, Permutation_map, NoDup_Permutation.
  - apply NoDup_map_inj; [|now apply NoDup_filter]. intros r q Hr Hq E.
    apply filter_In in Hr as [Hr Er]. apply filter_In in Hq as [Hq Eq].
    apply Ci in Hr as [a [b [-> _]]]. apply Ci in Hq as [a' [b' [-> _]]]. cbn in *.
    apply Nat.eqb_eq in Er. apply Nat.eqb_eq in Eq. congruence.
  - apply NoDup_filter, (wf_nodes _ W).
  - intros i. rewrite in_map_iff, filter_In, feeds_iff. split.
    + intros [r [E Hr]]. apply filter_In in Hr as [Hr Er]. apply Ci in Hr as [a [b [-> H]]]. cbn in *.
      apply Nat.eqb_eq in Er. subst. tauto.
    + intros [Hi [H1 [H2 H3]]]. exists [o; i]. split; [reflexivity|]. apply filter_In. split; [|cbn; apply Nat.eqb_refl].
      apply Ci. exists o, i. repeat split; auto.
Qed.

Lemma in_cross_iff triv S n : wf_sys S -> In n (s_nodes S) ->
  in_cross (cross_domain_routes triv S) n = true <-> s_kind S n = KOutput /\ exists i, feeds S n i = true.
Proof.
  intros W Hn. destruct (cross_spec triv S W) as [_ Ci]. unfold in_cross. rewrite existsb_exists. split.
  - intros [r [Hr E]]. apply Ci in Hr as [o [i [-> H]]]. cbn in E. apply Nat.eqb_eq in E. subst o.
    split; [tauto|]. exists i. apply feeds_iff. tauto.
  - intros [Hk [i Hi]]. apply feeds_iff in Hi as [H1 [H2 H3]]. exists [n; i]. split; [|cbn; apply Nat.eqb_refl].
    apply Ci. exists n, i. destruct (wf_ends _ W _ _ H3). repeat split; auto.
Qed.

Lemma user_cost_nodes S d nf : wf_sys S -> (forall n, is_flow_node (s_kind S n) = false -> nf n == 0) ->
  user_cost S d (commit_all_nodes S nf) == qsum (map (fun n => get_cost S d n * nf n) (s_nodes S)).
Proof.
  intros W Z. set (F := nf).
  rewrite (qsum_map_ext (fun n => get_cost S d n * F n)
    (fun n => (match s_slot S n with NoSlot => get_cost S d n * F n | _ => 0 end) +
      match s_slot S n with NoSlot => 0 | InputOf st => - d_cost d st * F n | OutputOf st => d_cost d st * F n end)).
  2:{ intros n _. unfold get_cost. destruct (s_slot S n); ring. }
  rewrite (qsum_map_plus (fun n => match s_slot S n with NoSlot => get_cost S d n * F n | _ => 0 end)), slot_cost by exact W.
  rewrite <- qsum_map_plus. unfold user_cost. apply qsum_map_ext. intros n Hn.
  destruct (s_kind S n) eqn:K; unfold get_cost;
    try (rewrite (slots_empty_out S n W), (slots_empty_in S n W) by congruence);
    try rewrite (storage_no_slot S n W Hn K); rewrite ?K; cbn [is_flow_node is_input is_output is_link is_storage orb map qsum].
  - destruct (s_slot S n); try ring. rewrite committed_plain by (auto; congruence). subst F. ring.
  - destruct (s_slot S n); try ring. rewrite committed_plain by (auto; congruence). subst F. ring.
  - destruct (s_slot S n); try ring. rewrite committed_plain by (auto; congruence). subst F. ring.
  - rewrite committed_storage by auto. fold F.
    assert (F n == 0) as -> by (apply Z; now rewrite K). ring.
  - destruct (s_slot S n); ring.
  - destruct (s_slot S n); ring.
  - destruct (s_slot S n); ring.
Qed.

Lemma set_row_ok coef t lb ub r x : set_row coef t lb ub = Ok r ->
  (row_ok x r <-> bounds_ok t lb ub (qsum (map (fun c => snd c * x (fst c)) coef))).
Proof. intros H. apply set_row_inv in H as [-> _]. reflexivity. Qed.

(** Both [factor_rows] have this shape. *)
Lemma tl_map_norm fs : tl (factors_norm fs) = map (fun f => hd 0 fs / f) (tl fs).
Proof. destruct fs; reflexivity. Qed.

Lemma combine_map_r {A B C} (f : B -> C) (l : list A) (m : list B) :
  combine l (map f m) = map (fun ab => (fst ab, f (snd ab))) (combine l m).
Proof. revert m. induction l as [|a l IH]; intros [|b m]; cbn; [reflexivity..|]. now rewrite IH. Qed.

Lemma cmp_member_ok triv S a m : comparable triv S -> In a (s_nodes S) ->
  s_kind S a = KAggregated \/ s_kind S a = KVirtual -> In m (s_members S a) -> member_ok S m.
Proof.
  intros C Ha Hk Hm. destruct (reg_members _ (cmp_regular _ _ C) a m Ha Hk Hm) as [H1 H2]. split; [exact H1|]. split; [exact H2|].
  apply clean_all. exact (reg_clean _ (cmp_regular _ _ C)).
Qed.

(** ** Routes *)
Section Route.
  Variables (triv : bool) (S : sys) (d : data) (x : nat -> Q).
  Hypothesis C : comparable triv S.
  Let W := reg_wf _ (cmp_regular _ _ C).
  Let rs := routes triv S.
  Let cross := cross_domain_routes triv S.

  Lemma route_flow_rows n l : In n (s_nodes S) -> is_flow_node (s_kind S n) = true ->
    non_storage_rows S d rs cross n = Ok l ->
    ((forall r, In r l -> row_ok x r) <->
     within (flow_bounds (d_min d n) (d_max d n)) (committed triv S x n) /\
     (s_kind S n = KOutput -> (exists i, feeds S n i = true) ->
       committed triv S x n == qsum (map (fun i => committed triv S x i / s_conv S i) (filter (feeds S n) (s_nodes S))))).
  Proof.
    intros Hn Hk Hl. unfold non_storage_rows in Hl.
    pose proof (node_cols_carries S rs x n Hk) as HS.
    destruct (node_cols S rs n) as [|c cs] eqn:Ec; [discriminate|]. rewrite <- Ec in *.
    destruct (flow_bounds (d_min d n) (d_max d n)) as [[t lb] ub] eqn:Eb. cbn [within].
    destruct (set_row (map (fun c0 => (c0, 1)) (node_cols S rs n)) t lb ub) as [r1|e] eqn:E1; [|discriminate].
    assert (row_ok x r1 <-> bounds_ok t lb ub (committed triv S x n)) as H1.
    { rewrite (set_row_ok _ _ _ _ _ x E1). split; apply bounds_ok_ext; rewrite HS, committed_flow by assumption; reflexivity. }
    destruct (in_cross cross n) eqn:Ex.
    - apply in_cross_iff in Ex as [Ho Hi]; [|exact W|exact Hn].
      destruct (set_row (map (fun c0 => (c0, - (1))) (node_cols S rs n) ++ _) FX (Fin 0) (Fin 0)) as [r2|] eqn:E2; [|discriminate].
      injection Hl as <-.
      assert (row_ok x r2 <-> committed triv S x n == qsum (map (fun i => committed triv S x i / s_conv S i) (filter (feeds S n) (s_nodes S)))) as H2.
      { rewrite (set_row_ok _ _ _ _ _ x E2). cbn [bounds_ok]. rewrite map_app, qsum_app.
        rewrite (cross_cols_sum S rs cross x n (fun _ => 0)).
        2:{ intros r Hr. apply (proj2 (cross_spec triv S W)) in Hr as [a [b [-> _]]]. eauto. }
        unfold cross. rewrite (cross_sum triv S n (fun i => 1 / s_conv S i * rsum rs x (fun q => bq (Nat.eqb (rfirst q) i))) W Hn Ho).
        rewrite (qsum_map_ext (fun i => committed triv S x i / s_conv S i)
          (fun i => 1 / s_conv S i * rsum rs x (fun q => bq (Nat.eqb (rfirst q) i)))).
        2:{ intros i Hi'. apply filter_In in Hi' as [Hi' Hs]. apply feeds_iff in Hs as [Hs _].
            rewrite committed_flow by (auto; now rewrite Hs). unfold carries. rewrite Hs. fold rs. unfold Qdiv. ring. }
        assert (qsum (map (fun c0 => snd c0 * x (fst c0)) (map (fun c0 => (c0, - (1))) (node_cols S rs n))) == - committed triv S x n) as ->.
        { rewrite committed_flow by assumption. fold rs. rewrite <- HS, !map_map. cbn [fst snd].
          rewrite (qsum_map_ext _ (fun c0 => - (1) * (1 * x c0))) by (intros; ring). rewrite qsum_map_scale. ring. }
        set (A := committed triv S x n). split; intros K; lra. }
      rewrite <- H1. split.
      + intros K. split; [apply K; now left|]. intros _ _. apply H2, K. right. now left.
      + intros [K1 K2] r [<-|[<-|[]]]; [exact K1|]. apply H2. auto.
    - injection Hl as <-. rewrite <- H1. split.
      + intros K. split; [apply K; now left|]. intros Ho Hi. exfalso.
        assert (in_cross cross n = true) by (apply in_cross_iff; auto). congruence.
      + intros [K _] r [<-|[]]. exact K.
  Qed.

  Lemma route_storage_row st r : In st (s_nodes S) -> s_kind S st = KStorage -> storage_row S d rs st = Ok r ->
    (row_ok x r <-> within (storage_bounds (d_vol d st) (d_minvol d st) (d_maxvol d st) (d_days d)) (committed triv S x st)).
  Proof.
    intros Hn Hk Hr. unfold storage_row in Hr.
    destruct (storage_bounds (d_vol d st) (d_minvol d st) (d_maxvol d st) (d_days d)) as [[t lb] ub]. cbn [within].
    rewrite (set_row_ok _ _ _ _ _ x Hr). split; apply bounds_ok_ext; rewrite storage_row_value, committed_storage_routes by assumption; reflexivity.
  Qed.

  Lemma route_virtual_row v r : In v (s_nodes S) -> s_kind S v = KVirtual -> virtual_row S d rs v = Ok r ->
    (row_ok x r <-> within (virtual_bounds (d_active d v) (d_vol d v) (d_minvol d v) (d_maxvol d v) (d_days d))
       (virtual_flow S (committed triv S x) v)).
  Proof.
    intros Hv Hk Hr. unfold virtual_row in Hr.
    destruct (virtual_bounds (d_active d v) (d_vol d v) (d_minvol d v) (d_maxvol d v) (d_days d)) as [[t lb] ub]. cbn [within].
    rewrite (set_row_ok _ _ _ _ _ x Hr).
    destruct (cmp_virtual _ _ C v Hv Hk) as [Hn Hl].
    assert (qsum (map (fun c => snd c * x (fst c)) (flat_map (fun c => match virtual_entry S v (snd c) with
      | Some f => [(fst c, - f)] | None => [] end) (enumerate rs))) == virtual_flow S (committed triv S x) v) as E.
    { rewrite virtual_entries_value, virtual_flow_sum. apply Qopp_comp.
      rewrite (rsum_ext _ _ _ (fun r => qsum (map (fun mf => snd mf * bq (memb (fst mf) r)) (combine (s_members S v) (s_vfactors S v))))).
      2:{ intros q Hq. apply virtual_entry_memb; auto. apply (rf_nodup S). eapply routes_facts; eauto. }
      rewrite (rsum_sum rs x (fun mf r => snd mf * bq (memb (fst mf) r))).
      apply qsum_map_ext. intros [m f] Hc. cbn [fst snd]. rewrite rsum_scale, committed_memb; [reflexivity|exact W|].
      eapply cmp_member_ok; eauto. eapply in_combine_l; eauto. }
    split; apply bounds_ok_ext; rewrite E; reflexivity.
  Qed.

  Lemma route_factor_rows a l : In a (s_nodes S) -> s_kind S a = KAggregated -> factor_rows S d rs a = Ok l ->
    ((forall r, In r l -> row_ok x r) <->
     forall m0 ms m g, s_members S a = m0 :: ms -> In (m, g) (combine ms (tl (d_factors d a))) ->
       committed triv S x m0 == hd 0 (d_factors d a) / g * committed triv S x m).
  Proof.
    intros Ha Hk Hl. unfold factor_rows in Hl.
    assert (forall m, In m (s_members S a) -> committed triv S x m == rsum rs x (fun r => bq (memb m r))) as Hc.
    { intros m Hm. apply committed_memb; [exact W|]. eapply cmp_member_ok; eauto. }
    destruct (s_members S a) as [|m0 ms].
    { discriminate. }
    destruct (factors_usable _ _); [|discriminate].
    rewrite tl_map_norm, combine_map_r in Hl.
    assert (forall m g r, In (m, g) (combine ms (tl (d_factors d a))) ->
      set_row (map (fun c => (c, 1)) (cols rs (fun r => memb m0 r)) ++
               map (fun c => (c, - (hd 0 (d_factors d a) / g))) (cols rs (fun r => memb m r))) FX (Fin 0) (Fin 0) = Ok r ->
      (row_ok x r <-> committed triv S x m0 == hd 0 (d_factors d a) / g * committed triv S x m)) as Hrow.
    { intros m g r Hin Hr. rewrite (set_row_ok _ _ _ _ _ x Hr). cbn [bounds_ok]. rewrite map_app, qsum_app, !cols_sum.
      rewrite (Hc m0) by now left. rewrite (Hc m) by (right; eapply in_combine_l; eauto).
      set (A := rsum rs x (fun r0 => bq (memb m0 r0))). set (B := _ / g * rsum rs x (fun r0 => bq (memb m r0))).
      setoid_replace (- (hd 0 (d_factors d a) / g) * rsum rs x (fun r0 => bq (memb m r0))) with (- B) by (unfold B; ring).
      split; intros K; lra. }
    split.
    - intros H m0' ms' m g E Hin. injection E as <- <-.
      destruct (mapM_In _ _ _ Hl (m, hd 0 (d_factors d a) / g)) as [r [Hr Hrl]].
      { apply in_map_iff. exists (m, g). auto. }
      cbn [fst snd] in Hr. apply (Hrow m g r Hin Hr), H, Hrl.
    - intros H r Hr. destruct (mapM_In_inv _ _ _ Hl r Hr) as [[m f] [Hset Hin]]. cbn [fst snd] in Hset.
      apply in_map_iff in Hin as [[m' g] [E Hin]]. cbn [fst snd] in E. injection E as -> <-.
      apply (Hrow m g r Hin Hset). eapply H; eauto.
  Qed.

  Lemma route_agg_row a r : In a (s_nodes S) -> s_kind S a = KAggregated -> agg_row S d rs a = Ok r ->
    (row_ok x r <-> within (flow_bounds (d_min d a) (d_max d a)) (aggregated_flow S (committed triv S x) a)).
  Proof.
    intros Ha Hk Hr. unfold agg_row in Hr. destruct (flow_bounds (d_min d a) (d_max d a)) as [[t lb] ub]. cbn [within].
    rewrite (set_row_ok _ _ _ _ _ x Hr).
    assert (qsum (map (fun c => snd c * x (fst c)) (isort (fun u v => Nat.leb (fst u) (fst v)) (agg_matrix S rs a)))
      == aggregated_flow S (committed triv S x) a) as E.
    { rewrite (qsum_Permutation _ (map (fun c => snd c * x (fst c)) (agg_matrix S rs a))).
      2:{ apply Permutation_map. apply Permutation_sym, isort_perm. }
      fold (msum x (agg_matrix S rs a)). unfold agg_matrix. rewrite agg_outer.
      - unfold msum. cbn [map qsum]. unfold aggregated_flow. rewrite Qplus_0_l. apply qsum_map_ext.
        intros [n w] Hn. cbn [fst snd]. rewrite committed_memb; [fold rs; ring|exact W|].
        eapply cmp_member_ok; eauto. eapply in_combine_l; eauto.
      - intros q Hq. rewrite map_fst_combine by (symmetry; eapply reg_weights; eauto using cmp_regular). eapply cmp_apart; eauto.
      - intros c _ []. }
    split; apply bounds_ok_ext; rewrite E; reflexivity.
  Qed.

  Lemma route_meets P : posed triv S d = Ok P ->
    (feasible P x <-> (forall c, (c < length rs)%nat -> 0 <= x c) /\ meets S d (committed triv S x)).
  Proof.
    intros HP. apply posed_inv in HP. unfold feasible. rewrite (pf_cols _ _ _ _ HP). fold rs. split.
    - intros [Hx HF]. split; [exact Hx|]. split.
      + intros n Hn Hk. destruct (pf_flow _ _ _ _ HP n Hn Hk) as [l [Hl Hin]].
        apply (route_flow_rows n l Hn Hk Hl). auto.
      + intros n Hn Hk Hi. assert (is_flow_node (s_kind S n) = true) as Hf by now rewrite Hk.
        destruct (pf_flow _ _ _ _ HP n Hn Hf) as [l [Hl Hin]].
        apply (route_flow_rows n l Hn Hf Hl); auto.
      + intros n Hn Hk. destruct (pf_storage _ _ _ _ HP n Hn Hk) as [r [Hr Hin]]. apply (route_storage_row n r); auto.
      + intros n Hn Hk. destruct (pf_virtual _ _ _ _ HP n Hn Hk) as [r [Hr Hin]]. apply (route_virtual_row n r); auto.
      + intros a m0 ms m g Ha Hk Hf Hm Hin. destruct (pf_factor _ _ _ _ HP a Ha Hk Hf) as [l [Hl Hi]].
        eapply (proj1 (route_factor_rows a l Ha Hk Hl)); eauto.
      + intros n Hn Hk. destruct (pf_agg _ _ _ _ HP n Hn Hk) as [r [Hr Hin]]. apply (route_agg_row n r); auto.
    - intros [Hx M]. split; [exact Hx|]. intros r Hr.
      destruct (pf_only _ _ _ _ HP r Hr) as [H|[H|[H|[H|H]]]].
      + destruct H as [n [l [H1 [H2 [H3 H4]]]]]. eapply (proj2 (route_flow_rows n l H1 H2 H3)); [|exact H4].
        split; [apply (meets_flow _ _ _ M); auto|intros; apply (meets_cross _ _ _ M); auto].
      + destruct H as [n [H1 [H2 H3]]]. apply (route_storage_row n r); auto. apply (meets_storage _ _ _ M); auto.
      + destruct H as [n [H1 [H2 H3]]]. apply (route_virtual_row n r); auto. apply (meets_virtual _ _ _ M); auto.
      + destruct H as [n [l [H1 [H2 [H3 [H4 H5]]]]]]. eapply (proj2 (route_factor_rows n l H1 H2 H4)); [|exact H5].
        intros m0 ms m g. apply (meets_factors _ _ _ M); auto.
      + destruct H as [n [H1 [H2 H3]]]. apply (route_agg_row n r); auto. apply (meets_agg _ _ _ M); auto.
  Qed.
End Route.
