(** Proofs of the flow properties (C12, C13, C16-C20, C31) from the sums of RouteLP_proofs. *)
From Verif Require Import Base Paths Sorting Routes_model Routes_spec Routes_proofs LP_model Sys_model
  RouteLP_model RouteLP_spec RouteLP_proofs.
From Coq Require Import Permutation.
Open Scope Q_scope.

(** ** Conservation *)
Lemma sum_nodes_pick S (p : nat -> bool) y : wf_sys S -> In y (s_nodes S) ->
  qsum (map (fun n => bq (p n) * bq (Nat.eqb y n)) (s_nodes S)) == bq (p y).
Proof.
  intros W Hy. rewrite (qsum_map_ext _ (fun n => bq (Nat.eqb y n) * bq (p n))) by (intros; ring).
  apply (qsum_indicator (fun n => bq (p n))); [exact (wf_nodes _ W)|exact Hy].
Qed.

Lemma domain_balance triv S x D : wf_sys S ->
  qsum (map (fun n => bq (is_input (s_kind S n) && Nat.eqb (s_domain S n) D) * committed triv S x n) (s_nodes S)) ==
  qsum (map (fun n => bq (is_output (s_kind S n) && Nat.eqb (s_domain S n) D) * committed triv S x n) (s_nodes S)).
Proof.
  intros W.
  transitivity (rsum (routes triv S) x (fun r => bq (Nat.eqb (s_domain S (rfirst r)) D))).
  - rewrite (qsum_map_ext _ (fun n => rsum (routes triv S) x
      (fun r => bq (is_input (s_kind S n) && Nat.eqb (s_domain S n) D) * bq (Nat.eqb (rfirst r) n)))).
    2:{ intros n Hn. rewrite rsum_scale. destruct (is_input (s_kind S n)) eqn:E; cbn [andb]; [|unfold bq; ring].
        rewrite committed_flow; auto; [|unfold is_flow_node; now rewrite E].
        unfold carries. destruct (s_kind S n); try discriminate. reflexivity. }
    rewrite <- (rsum_sum (routes triv S) x (fun n r => bq (is_input (s_kind S n) && Nat.eqb (s_domain S n) D) * bq (Nat.eqb (rfirst r) n))).
    apply rsum_ext. intros r Hr. pose proof (routes_facts _ _ _ W Hr) as F.
    rewrite (sum_nodes_pick S (fun n => is_input (s_kind S n) && Nat.eqb (s_domain S n) D)); auto.
    + rewrite (rf_first _ _ F). reflexivity.
    + apply (rf_nodes _ _ F), first_in, (rf_ne _ _ F).
  - rewrite (qsum_map_ext (fun n => bq (is_output (s_kind S n) && Nat.eqb (s_domain S n) D) * committed triv S x n)
      (fun n => rsum (routes triv S) x
      (fun r => bq (is_output (s_kind S n) && Nat.eqb (s_domain S n) D) * bq (Nat.eqb (rlast r) n)))).
    2:{ intros n Hn. rewrite rsum_scale. destruct (is_output (s_kind S n)) eqn:E; cbn [andb]; [|unfold bq; ring].
        rewrite committed_flow; auto; [|unfold is_flow_node; rewrite E; destruct (is_input (s_kind S n)); reflexivity].
        unfold carries. destruct (s_kind S n); try discriminate. reflexivity. }
    rewrite <- (rsum_sum (routes triv S) x (fun n r => bq (is_output (s_kind S n) && Nat.eqb (s_domain S n) D) * bq (Nat.eqb (rlast r) n))).
    apply rsum_ext. intros r Hr. pose proof (routes_facts _ _ _ W Hr) as F.
    rewrite (sum_nodes_pick S (fun n => is_output (s_kind S n) && Nat.eqb (s_domain S n) D)); auto.
    + rewrite (rf_last _ _ F). cbn [is_output andb].
      rewrite (rf_domain _ _ F (rfirst r) (rlast r)); [reflexivity|apply first_in|apply last_in]; apply (rf_ne _ _ F).
    + apply (rf_nodes _ _ F), last_in, (rf_ne _ _ F).
Qed.

Lemma pair_in_iff a b r : pair_in a b r = true <-> exists l m, r = l ++ a :: b :: m.
Proof.
  unfold pair_in. rewrite existsb_exists. split.
  - intros [[u v] [H1 H2]]. cbn in H2. apply andb_true_iff in H2 as [Ha Hb].
    apply Nat.eqb_eq in Ha. apply Nat.eqb_eq in Hb. subst u v.
    induction r as [|y r IH]; [contradiction|]. destruct r as [|z r]; [contradiction|].
    destruct H1 as [H1|H1].
    + injection H1 as -> ->. now exists [], r.
    + destruct (IH H1) as [l [m E]]. exists (y :: l), m. now rewrite E.
  - intros [l [m ->]]. exists (a, b). split; [|cbn; now rewrite !Nat.eqb_refl].
    induction l as [|y l IH]; [now left|]. cbn [app]. destruct l as [|z l].
    + right. now left.
    + right. exact IH.
Qed.

Lemma edge_flow_rsum rs x a b : edge_flow rs x a b == rsum rs x (fun r => bq (pair_in a b r)).
Proof.
  rewrite rsum_seq. unfold edge_flow. apply qsum_map_ext. intros k _.
  destruct (pair_in a b (nth k rs [])); unfold bq; ring.
Qed.

Lemma NoDup_split_unique {A} (l1 l2 m1 m2 : list A) n :
  NoDup (l1 ++ n :: m1) -> l1 ++ n :: m1 = l2 ++ n :: m2 -> l1 = l2 /\ m1 = m2.
Proof.
  revert l2. induction l1 as [|a l1 IH]; intros l2 Hn E; destruct l2 as [|b l2]; cbn in E.
  - injection E as E. auto.
  - injection E as -> E. exfalso. cbn in Hn. inversion Hn as [|? ? Hx _]; subst. apply Hx. rewrite in_app_iff. right. now left.
  - injection E as -> E. exfalso. cbn in Hn. inversion Hn as [|? ? Hx _]; subst. apply Hx. rewrite in_app_iff. right. now left.
  - injection E as -> E. cbn in Hn. inversion Hn; subst. destruct (IH l2) as [-> ->]; auto.
Qed.

Lemma pred_unique r n : NoDup r -> In n r -> n <> rfirst r ->
  exists p, In p r /\ forall a, pair_in a n r = Nat.eqb p a.
Proof.
  intros Hn Hin Hf. apply in_split in Hin as [l [m E]]. destruct l as [|y l].
  - subst. cbn in Hf. congruence.
  - destruct (exists_last (l := y :: l)) as [l' [p El]]; [discriminate|]. exists p. rewrite El in E. clear El y l. subst r. split; [rewrite !in_app_iff; left; right; now left|].
    intros a. apply eq_true_iff_eq. rewrite pair_in_iff, Nat.eqb_eq. split.
    + intros [l2 [m2 E]]. rewrite <- !app_assoc in E. cbn in E.
      assert (l' ++ [p] = l2 ++ [a]) as E2.
      { apply (NoDup_split_unique (l' ++ [p]) (l2 ++ [a]) m m2 n).
        - exact Hn.
        - rewrite <- !app_assoc. exact E. }
      apply app_inj_tail in E2 as [_ ->]. reflexivity.
    + intros ->. exists l', m. now rewrite <- app_assoc.
Qed.

Lemma succ_unique r n : NoDup r -> In n r -> n <> rlast r ->
  exists p, In p r /\ forall a, pair_in n a r = Nat.eqb p a.
Proof.
  intros Hn Hin Hf. apply in_split in Hin as [l [m E]]. destruct m as [|p m].
  - subst. unfold rlast in Hf. rewrite last_app_cons in Hf. cbn in Hf. congruence.
  - exists p. subst r. split; [rewrite in_app_iff; right; right; now left|].
    intros a. apply eq_true_iff_eq. rewrite pair_in_iff, Nat.eqb_eq. split.
    + intros [l2 [m2 E]]. apply NoDup_split_unique in E as [_ E]; [|exact Hn]. congruence.
    + intros ->. now exists l, m.
Qed.

Lemma link_inflow triv S x n : wf_sys S -> In n (s_nodes S) -> s_kind S n = KLink ->
  qsum (map (fun a => edge_flow (routes triv S) x a n) (s_nodes S)) == committed triv S x n.
Proof.
  intros W Hn Hk. rewrite committed_flow; auto; [|now rewrite Hk].
  rewrite (qsum_map_ext _ (fun a => rsum (routes triv S) x (fun r => bq (pair_in a n r)))) by (intros; apply edge_flow_rsum).
  rewrite <- (rsum_sum (routes triv S) x (fun a r => bq (pair_in a n r))). apply rsum_ext.
  intros r Hr. pose proof (routes_facts _ _ _ W Hr) as F. unfold carries. rewrite Hk.
  destruct (membP n r) as [H|H].
  - destruct (pred_unique r n) as [p [Hp E]]; [apply (rf_nodup _ _ F)|exact H| |].
    { intros ->. rewrite (rf_first _ _ F) in Hk. discriminate. }
    rewrite (qsum_map_ext _ (fun a => bq (Nat.eqb p a))) by (intros; now rewrite E).
    rewrite qsum_indicator_memb by exact (wf_nodes _ W).
    destruct (membP p (s_nodes S)) as [|K]; [reflexivity|]. exfalso. now apply K, (rf_nodes _ _ F).
  - apply qsum_map_zero. intros a _. destruct (pair_in a n r) eqn:E; [|reflexivity]. exfalso.
    apply pair_in_iff in E as [l [m ->]]. apply H. rewrite in_app_iff. right. right. now left.
Qed.

Lemma link_outflow triv S x n : wf_sys S -> In n (s_nodes S) -> s_kind S n = KLink ->
  qsum (map (fun b => edge_flow (routes triv S) x n b) (s_nodes S)) == committed triv S x n.
Proof.
  intros W Hn Hk. rewrite committed_flow; auto; [|now rewrite Hk].
  rewrite (qsum_map_ext _ (fun a => rsum (routes triv S) x (fun r => bq (pair_in n a r)))) by (intros; apply edge_flow_rsum).
  rewrite <- (rsum_sum (routes triv S) x (fun a r => bq (pair_in n a r))). apply rsum_ext.
  intros r Hr. pose proof (routes_facts _ _ _ W Hr) as F. unfold carries. rewrite Hk.
  destruct (membP n r) as [H|H].
  - destruct (succ_unique r n) as [p [Hp E]]; [apply (rf_nodup _ _ F)|exact H| |].
    { intros ->. rewrite (rf_last _ _ F) in Hk. discriminate. }
    rewrite (qsum_map_ext _ (fun a => bq (Nat.eqb p a))) by (intros; now rewrite E).
    rewrite qsum_indicator_memb by exact (wf_nodes _ W).
    destruct (membP p (s_nodes S)) as [|K]; [reflexivity|]. exfalso. now apply K, (rf_nodes _ _ F).
  - apply qsum_map_zero. intros a _. destruct (pair_in n a r) eqn:E; [|reflexivity]. exfalso.
    apply pair_in_iff in E as [l [m ->]]. apply H. rewrite in_app_iff. right. now left.
Qed.

(** Every edge that carries water is an edge of the graph. *)
Lemma edge_flow_on_edges triv S x a b : wf_sys S -> ~ In (a, b) (s_edges S) ->
  edge_flow (routes triv S) x a b == 0.
Proof.
  intros W H. rewrite edge_flow_rsum. apply rsum_zero. intros r Hr. pose proof (routes_facts _ _ _ W Hr) as F.
  destruct (pair_in a b r) eqn:E; [|reflexivity]. exfalso. apply H. apply pair_in_iff in E as [l [m ->]].
  pose proof (rf_chain _ _ F) as C. apply chain_app_r in C. cbn in C. tauto.
Qed.

(** ** Bounds *)
Ltac inv H := inversion H; subst; clear H.

Lemma flow_bounds_ok mn mx t lb ub v : flow_bounds mn mx = (t, lb, ub) -> bounds_ok t lb ub v ->
  at_least mn v /\ at_most v mx.
Proof.
  unfold flow_bounds. intros H. injection H as <- <- <-. unfold constraint_type.
  destruct mn as [|a|], mx as [|b|]; cbn [eround8 near]; cbn [bounds_ok ext_le_q q_le_ext at_least at_most];
    try tauto.
  - unfold round8. destruct (qltbP (qabs b) eps8) as [H|H]; unfold qabs in H; qif_in H; unfold eps8 in *; intros; split; try exact I; lra.
  - unfold round8. destruct (qltbP (qabs a) eps8) as [H|H]; [destruct (qltbP (qabs b) eps8) as [K|K]|destruct (qltbP (qabs b) eps8) as [K|K]];
    unfold qabs in H, K; qif_in H; qif_in K;
    match goal with |- context [qltb (qabs ?e) eps8] => destruct (qltbP (qabs e) eps8) as [L|L]; unfold qabs in L; qif_in L end;
    unfold eps8 in *; cbn [bounds_ok ext_le_q q_le_ext]; intros; split; lra.
  - unfold round8. destruct (qltbP (qabs a) eps8) as [H|H]; unfold qabs in H; qif_in H; unfold eps8 in *; intros; split; try exact I; lra.
Qed.

Lemma node_cols_carries S rs x n : is_flow_node (s_kind S n) = true ->
  qsum (map (fun c => snd c * x (fst c)) (map (fun c => (c, 1)) (node_cols S rs n)))
  == rsum rs x (fun r => bq (carries S n r)).
Proof.
  intros H. unfold node_cols, carries. destruct (s_kind S n); try discriminate; rewrite cols_sum; ring.
Qed.

Lemma flow_row triv S d P x n : wf_sys S -> posed triv S d = Ok P -> feasible P x ->
  In n (s_nodes S) -> is_flow_node (s_kind S n) = true ->
  let '(t, lb, ub) := flow_bounds (d_min d n) (d_max d n) in bounds_ok t lb ub (committed triv S x n).
Proof.
  intros W HP [_ HF] Hn Hk. apply posed_inv in HP.
  destruct (pf_flow _ _ _ _ HP n Hn Hk) as [l [Hl Hin]].
  unfold non_storage_rows in Hl. pose proof (node_cols_carries S (routes triv S) x n Hk) as HS.
  destruct (node_cols S (routes triv S) n) as [|c cs]; [discriminate|].
  destruct (flow_bounds (d_min d n) (d_max d n)) as [[t lb] ub].
  destruct (set_row (map (fun c0 => (c0, 1)) (c :: cs)) t lb ub) as [r1|e] eqn:E1; [|discriminate].
  assert (In r1 (lp_rows P)) as Hr1.
  { apply Hin. destruct (in_cross _ n); [|injection Hl as <-; now left].
    destruct (set_row (map (fun c0 => (c0, - (1))) (c :: cs) ++ _) FX (Fin 0) (Fin 0)); [|discriminate].
    injection Hl as <-. now left. }
  apply HF in Hr1. apply set_row_inv in E1 as [-> _]. unfold row_ok in Hr1. cbn [r_type r_lb r_ub] in Hr1.
  unfold row_value in Hr1. cbn [r_coef] in Hr1.
  assert (forall v w, v == w -> bounds_ok t lb ub v -> bounds_ok t lb ub w) as Hext.
  { intros v w E. unfold bounds_ok, ext_le_q, q_le_ext. destruct t, lb, ub; try tauto; try rewrite E; tauto. }
  eapply Hext; [|exact Hr1]. rewrite HS. symmetry. now apply committed_flow.
Qed.

Lemma bounds_ok_ext t lb ub v w : v == w -> bounds_ok t lb ub v -> bounds_ok t lb ub w.
Proof. intros E. unfold bounds_ok, ext_le_q, q_le_ext. destruct t, lb, ub; try tauto; try rewrite E; tauto. Qed.

Lemma flow_in_bounds triv S d x n : wf_sys S -> solved triv S d x ->
  In n (s_nodes S) -> is_flow_node (s_kind S n) = true ->
  0 <= committed triv S x n /\ at_least (d_min d n) (committed triv S x n) /\ at_most (committed triv S x n) (d_max d n).
Proof.
  intros W [P [HP HF]] Hn Hk. pose proof (flow_row triv S d P x n W HP HF Hn Hk) as HB. split.
  - rewrite committed_flow by assumption. destruct HF as [Hx _]. apply posed_inv in HP.
    apply rsum_nonneg; [intros c Hc; apply Hx; now rewrite (pf_cols _ _ _ _ HP)|].
    intros r _. destruct (carries S n r); unfold bq; lra.
  - destruct (flow_bounds (d_min d n) (d_max d n)) as [[t lb] ub] eqn:E. eapply flow_bounds_ok; eauto.
Qed.

(** ** Storage rows *)
Lemma storage_row_value S rs x st :
  qsum (map (fun c => snd c * x (fst c))
    (map (fun c => (c, 1)) (cols rs (fun r => memb (rlast r) (s_outputs S st) && negb (memb (rfirst r) (s_inputs S st)))) ++
     map (fun c => (c, - (1))) (cols rs (fun r => memb (rfirst r) (s_inputs S st) && negb (memb (rlast r) (s_outputs S st))))))
  == rsum rs x (fun r => bq (memb (rlast r) (s_outputs S st)) - bq (memb (rfirst r) (s_inputs S st))).
Proof.
  rewrite map_app, qsum_app, !cols_sum.
  setoid_replace (1 * rsum rs x (fun r => bq (memb (rlast r) (s_outputs S st) && negb (memb (rfirst r) (s_inputs S st)))) +
    - (1) * rsum rs x (fun r => bq (memb (rfirst r) (s_inputs S st) && negb (memb (rlast r) (s_outputs S st)))))
  with (rsum rs x (fun r => bq (memb (rlast r) (s_outputs S st) && negb (memb (rfirst r) (s_inputs S st)))) -
     rsum rs x (fun r => bq (memb (rfirst r) (s_inputs S st) && negb (memb (rlast r) (s_outputs S st))))) by ring.
  rewrite <- rsum_minus. apply rsum_ext. intros r _.
  destruct (memb (rlast r) (s_outputs S st)), (memb (rfirst r) (s_inputs S st)); cbn; reflexivity.
Qed.

Lemma storage_row_bounds triv S d P x st : wf_sys S -> posed triv S d = Ok P -> feasible P x ->
  In st (s_nodes S) -> s_kind S st = KStorage ->
  let '(t, lb, ub) := storage_bounds (d_vol d st) (d_minvol d st) (d_maxvol d st) (d_days d) in
  bounds_ok t lb ub (committed triv S x st).
Proof.
  intros W HP [_ HF] Hn Hk. apply posed_inv in HP.
  destruct (pf_storage _ _ _ _ HP st Hn Hk) as [r [Hr Hin]]. apply HF in Hin.
  unfold storage_row in Hr.
  destruct (storage_bounds (d_vol d st) (d_minvol d st) (d_maxvol d st) (d_days d)) as [[t lb] ub].
  apply set_row_inv in Hr as [-> _]. unfold row_ok in Hin. cbn [r_type r_lb r_ub] in Hin.
  eapply bounds_ok_ext; [|exact Hin]. unfold row_value. cbn [r_coef]. rewrite storage_row_value.
  symmetry. now apply committed_storage_routes.
Qed.

(** ** Cost *)
Lemma interior_split r : (2 <= length r)%nat -> r = rfirst r :: interior r ++ [rlast r].
Proof.
  destruct r as [|a r]; cbn [length]; [lia|]. intros H. unfold rfirst, interior, rlast. cbn [hd tl].
  f_equal. destruct r as [|b r]; [cbn in H; lia|].
  change (last (a :: b :: r) 0%nat) with (last (b :: r) 0%nat).
  apply app_removelast_last. discriminate.
Qed.

Lemma carries_in S n r : route_facts S r -> carries S n r = true -> In n r.
Proof.
  intros F H. unfold carries in H. destruct (s_kind S n); try discriminate.
  - apply Nat.eqb_eq in H. subst n. apply first_in, (rf_ne _ _ F).
  - apply Nat.eqb_eq in H. subst n. apply last_in, (rf_ne _ _ F).
  - destruct (membP n r); [assumption|discriminate].
Qed.

Lemma carries_interior S r n : route_facts S r -> In n (interior r) -> carries S n r = is_link (s_kind S n).
Proof.
  intros F H. pose proof (rf_nodup _ _ F) as Hn. pose proof (interior_split r (rf_length _ _ F)) as E.
  unfold carries. destruct (s_kind S n) eqn:K; try reflexivity.
  - destruct (Nat.eqb_spec (rfirst r) n) as [<-|]; [|reflexivity]. exfalso.
    rewrite E in Hn. inversion Hn as [|? ? Hx _]; subst. apply Hx. rewrite in_app_iff. now left.
  - destruct (Nat.eqb_spec (rlast r) n) as [<-|]; [|reflexivity]. exfalso.
    rewrite E in Hn. inversion Hn as [|? ? _ Hx]; subst. apply NoDup_remove in Hx as [_ Hx]. apply Hx. rewrite in_app_iff. now left.
  - destruct (membP n r) as [|K2]; [reflexivity|]. exfalso. apply K2. rewrite E. right. rewrite in_app_iff. now left.
Qed.

Lemma filter_ext_In {A} (p q : A -> bool) l : (forall a, In a l -> p a = q a) -> filter p l = filter q l.
Proof.
  induction l as [|a l IH]; intros H; cbn; [reflexivity|]. rewrite (H a) by now left.
  rewrite IH; [reflexivity|]. intros b Hb. apply H. now right.
Qed.

Lemma route_cost_nodes_carries S r : route_facts S r ->
  route_cost_nodes S r = filter (fun n => carries S n r) r.
Proof.
  intros F. transitivity (filter (fun n => carries S n r) (rfirst r :: interior r ++ [rlast r])).
  2:{ f_equal. symmetry. apply interior_split, (rf_length _ _ F). }
  unfold route_cost_nodes. cbn [filter app]. assert (carries S (rfirst r) r = true) as ->.
  { unfold carries. rewrite (rf_first _ _ F). apply Nat.eqb_refl. }
  f_equal. rewrite filter_app. cbn [filter]. assert (carries S (rlast r) r = true) as ->.
  { unfold carries. rewrite (rf_last _ _ F). apply Nat.eqb_refl. }
  f_equal. apply filter_ext_In. intros n Hn. symmetry. now apply carries_interior.
Qed.

Lemma path_cost_nodes S d r : route_facts S r ->
  path_cost S d r = qsum (map (get_cost S d) (route_cost_nodes S r)).
Proof.
  intros F. rewrite route_cost_nodes_carries by exact F. unfold path_cost. f_equal. f_equal. apply filter_ext_In.
  intros n Hn. fold (rfirst r). fold (rlast r). destruct (split_position r n Hn) as [E|[E|Hb]].
  - rewrite E, Nat.eqb_refl. unfold carries. rewrite (rf_first _ _ F). symmetry. apply Nat.eqb_refl.
  - rewrite E, Nat.eqb_refl, orb_true_r. unfold carries. rewrite (rf_last _ _ F). symmetry. apply Nat.eqb_refl.
  - apply interior_between in Hb. rewrite carries_interior by assumption.
    pose proof (rf_nodup _ _ F) as Hnd. pose proof (interior_split r (rf_length _ _ F)) as E. rewrite E in Hnd.
    destruct (Nat.eqb_spec n (rfirst r)) as [->|_].
    { exfalso. inversion Hnd as [|? ? Hx _]; subst. apply Hx. rewrite in_app_iff. now left. }
    destruct (Nat.eqb_spec n (rlast r)) as [->|_]; [|reflexivity].
    exfalso. inversion Hnd as [|? ? _ Hx]; subst. apply NoDup_remove in Hx as [_ Hx]. apply Hx. rewrite in_app_iff. now left.
Qed.

Lemma path_cost_sum S d r : wf_sys S -> route_facts S r ->
  path_cost S d r == qsum (map (fun n => get_cost S d n * bq (carries S n r)) (s_nodes S)).
Proof.
  intros W F. rewrite path_cost_nodes, route_cost_nodes_carries by exact F.
  rewrite (qsum_map_ext (fun n => get_cost S d n * bq (carries S n r)) (fun n => bq (carries S n r) * get_cost S d n)) by (intros; ring).
  rewrite <- qsum_filter. apply qsum_Permutation, Permutation_map, NoDup_Permutation.
  - apply NoDup_filter, (rf_nodup _ _ F).
  - apply NoDup_filter, (wf_nodes _ W).
  - intros n. rewrite !filter_In. split; intros [H1 H2]; (split; [|exact H2]).
    + now apply (rf_nodes _ _ F).
    + now apply (carries_in S).
Qed.

Lemma fold_cost (f : nat -> Q) l : forall c, fold_left (fun c n => c + f n) l c == c + qsum (map f l).
Proof. induction l as [|n l IH]; intros c; cbn [fold_left map qsum]; [ring|]. rewrite IH. ring. Qed.

Lemma round8_cases q : (qabs q < eps8 /\ round8 q == 0) \/ (eps8 <= qabs q /\ round8 q = q).
Proof. unfold round8. destruct (qltbP (qabs q) eps8); [left|right]; split; try reflexivity; lra. Qed.

Global Instance round8_Proper : Proper (Qeq ==> Qeq) round8.
Proof. intros a b E. unfold round8. rewrite E. destruct (qltb (qabs b) eps8); [reflexivity|exact E]. Qed.

Lemma route_cost_round S d r : route_facts S r -> route_cost S d r == round8 (path_cost S d r).
Proof.
  intros F. unfold route_cost. rewrite fold_cost, path_cost_nodes by exact F.
  apply round8_Proper. ring.
Qed.

Lemma objective_rsum triv S d P x : wf_sys S -> posed triv S d = Ok P ->
  objective P x == rsum (routes triv S) x (fun r => round8 (path_cost S d r)).
Proof.
  intros W HP. apply posed_inv in HP. unfold objective. rewrite (pf_cols _ _ _ _ HP).
  transitivity (rsum (routes triv S) x (route_cost S d)).
  - rewrite rsum_seq. apply qsum_map_ext. intros k _. now rewrite (pf_obj _ _ _ _ HP).
  - apply rsum_ext. intros r Hr. apply route_cost_round. eapply routes_facts; eauto.
Qed.

Lemma rsum_path_cost triv S d x : wf_sys S ->
  rsum (routes triv S) x (path_cost S d) ==
  qsum (map (fun n => get_cost S d n * node_flows triv S x n) (s_nodes S)).
Proof.
  intros W. rewrite (rsum_ext _ _ _ (fun r => qsum (map (fun n => get_cost S d n * bq (carries S n r)) (s_nodes S)))).
  2:{ intros r Hr. apply path_cost_sum; [exact W|]. eapply routes_facts; eauto. }
  rewrite (rsum_sum (routes triv S) x (fun n r => get_cost S d n * bq (carries S n r))).
  apply qsum_map_ext. intros n _. rewrite rsum_scale, <- node_flows_carries by exact W. reflexivity.
Qed.

Lemma nf_zero triv S x n : wf_sys S -> is_flow_node (s_kind S n) = false -> node_flows triv S x n == 0.
Proof.
  intros W H. rewrite node_flows_carries by exact W. apply rsum_zero. intros r _. unfold carries.
  destruct (s_kind S n); try discriminate; reflexivity.
Qed.

Lemma qsum_nodes_all S f : qsum (map f (s_nodes S)) == qsum (map f (all_nodes S)).
Proof. apply qsum_Permutation, Permutation_map, isort_perm. Qed.

Lemma slots_empty_out S st : wf_sys S -> s_kind S st <> KStorage -> s_outputs S st = [].
Proof.
  intros W H. destruct (s_outputs S st) as [|n l] eqn:E; [reflexivity|].
  exfalso. apply H. apply (wf_outputs_nodes _ W n st). rewrite E. now left.
Qed.
Lemma slots_empty_in S st : wf_sys S -> s_kind S st <> KStorage -> s_inputs S st = [].
Proof.
  intros W H. destruct (s_inputs S st) as [|n l] eqn:E; [reflexivity|].
  exfalso. apply H. apply (wf_inputs_nodes _ W n st). rewrite E. now left.
Qed.

(** The cost of the slots is the cost of the storages. *)
Lemma slot_cost S d (F : nat -> Q) : wf_sys S ->
  qsum (map (fun n => match s_slot S n with NoSlot => 0 | InputOf st => - d_cost d st * F n | OutputOf st => d_cost d st * F n end) (s_nodes S))
  == qsum (map (fun st => d_cost d st * (qsum (map F (s_outputs S st)) - qsum (map F (s_inputs S st)))) (s_nodes S)).
Proof.
  intros W.
  rewrite (qsum_map_ext (fun st => d_cost d st * (qsum (map F (s_outputs S st)) - qsum (map F (s_inputs S st))))
    (fun st => qsum (map (fun n => d_cost d st * (bq (slot_out S st n) * F n - bq (slot_in S st n) * F n)) (s_nodes S)))).
  2:{ intros st _. rewrite qsum_map_scale, qsum_map_minus, !qsum_nodes_all.
      rewrite (sum_slots S F _ _ W (wf_inputs_NoDup _ W st) (slot_in_spec S st W)).
      rewrite (sum_slots S F _ _ W (wf_outputs_NoDup _ W st) (slot_out_spec S st W)). reflexivity. }
  rewrite (qsum_swap (fun st n => d_cost d st * (bq (slot_out S st n) * F n - bq (slot_in S st n) * F n))).
  apply qsum_map_ext. intros n Hn. unfold slot_out, slot_in. destruct (s_slot S n) as [|k|k] eqn:E.
  - symmetry. apply qsum_map_zero. intros st _. change (bq false) with 0. ring.
  - rewrite (qsum_map_ext _ (fun st => bq (Nat.eqb k st) * (- d_cost d st * F n))).
    + rewrite (qsum_indicator (fun st => - d_cost d st * F n)); [reflexivity|exact (wf_nodes _ W)|].
      apply (wf_parent _ W n). now left.
    + intros st _. rewrite (Nat.eqb_sym st k). change (bq false) with 0. ring.
  - rewrite (qsum_map_ext _ (fun st => bq (Nat.eqb k st) * (d_cost d st * F n))).
    + rewrite (qsum_indicator (fun st => d_cost d st * F n)); [reflexivity|exact (wf_nodes _ W)|].
      apply (wf_parent _ W n). now right.
    + intros st _. rewrite (Nat.eqb_sym st k). change (bq false) with 0. ring.
Qed.

Lemma storage_no_slot S n : wf_sys S -> In n (s_nodes S) -> s_kind S n = KStorage -> s_slot S n = NoSlot.
Proof.
  intros W Hn Hk. destruct (s_slot S n) as [|k|k] eqn:E; [reflexivity| |].
  - apply (wf_inputs _ W) in E; [|exact Hn]. apply (wf_inputs_nodes _ W) in E. destruct E as [_ [E _]]. congruence.
  - apply (wf_outputs _ W) in E; [|exact Hn]. apply (wf_outputs_nodes _ W) in E. destruct E as [_ [E _]]. congruence.
Qed.

Lemma user_cost_rsum triv S d x : wf_sys S ->
  user_cost S d (committed triv S x) == rsum (routes triv S) x (path_cost S d).
Proof.
  intros W. rewrite rsum_path_cost by exact W. set (F := node_flows triv S x).
  rewrite (qsum_map_ext (fun n => get_cost S d n * F n)
    (fun n => (match s_slot S n with NoSlot => get_cost S d n * F n | _ => 0 end) +
      match s_slot S n with NoSlot => 0 | InputOf st => - d_cost d st * F n | OutputOf st => d_cost d st * F n end)).
  2:{ intros n _. unfold get_cost. destruct (s_slot S n); ring. }
  rewrite (qsum_map_plus (fun n => match s_slot S n with NoSlot => get_cost S d n * F n | _ => 0 end)), slot_cost by exact W.
  rewrite <- qsum_map_plus. unfold user_cost. apply qsum_map_ext. intros n Hn.
  destruct (s_kind S n) eqn:K; unfold get_cost;
    try (rewrite (slots_empty_out S n W), (slots_empty_in S n W) by congruence);
    try rewrite (storage_no_slot S n W Hn K); rewrite ?K; cbn [is_flow_node is_input is_output is_link is_storage orb map qsum].
  - destruct (s_slot S n); try ring. unfold committed. rewrite committed_plain by (auto; congruence). subst F. ring.
  - destruct (s_slot S n); try ring. unfold committed. rewrite committed_plain by (auto; congruence). subst F. ring.
  - destruct (s_slot S n); try ring. unfold committed. rewrite committed_plain by (auto; congruence). subst F. ring.
  - unfold committed. rewrite committed_storage by auto. fold F.
    assert (F n == 0) as -> by (apply nf_zero; [exact W|now rewrite K]). ring.
  - destruct (s_slot S n); ring.
  - destruct (s_slot S n); ring.
  - destruct (s_slot S n); ring.
Qed.

Lemma rsum_total rs x : rsum rs x (fun _ => 1) == total rs x.
Proof. rewrite rsum_seq. unfold total. apply qsum_map_ext. intros; ring. Qed.

Lemma rsum_le rs x f g : (forall c, (c < length rs)%nat -> 0 <= x c) ->
  (forall r, In r rs -> f r <= g r) -> rsum rs x f <= rsum rs x g.
Proof.
  intros Hx H. apply qsum_map_le. intros [k r] Hr. cbn [fst snd].
  apply Qmult_le_compat_r; [apply H; eapply enumerate_snd; eauto|apply Hx; eapply enumerate_fst; eauto].
Qed.

Lemma objective_user_cost triv S d P x : wf_sys S -> posed triv S d = Ok P -> feasible P x ->
  objective P x - eps8 * total (routes triv S) x <= user_cost S d (committed triv S x) /\
  user_cost S d (committed triv S x) <= objective P x + eps8 * total (routes triv S) x.
Proof.
  intros W HP [Hx _]. rewrite (objective_rsum triv S d P x W HP), user_cost_rsum by exact W.
  apply posed_inv in HP. rewrite (pf_cols _ _ _ _ HP) in Hx.
  rewrite <- rsum_total, <- rsum_scale, <- rsum_minus, <- rsum_plus.
  split; apply rsum_le; auto; intros r _;
    destruct (round8_cases (path_cost S d r)) as [[H1 H2]|[H1 H2]]; rewrite H2; unfold qabs in H1; qif_in H1; unfold eps8 in *; lra.
Qed.

Lemma objective_user_cost_exact triv S d P x : wf_sys S -> posed triv S d = Ok P ->
  (forall r, In r (routes triv S) -> path_cost S d r == 0 \/ eps8 <= qabs (path_cost S d r)) ->
  objective P x == user_cost S d (committed triv S x).
Proof.
  intros W HP H. rewrite (objective_rsum triv S d P x W HP), user_cost_rsum by exact W.
  apply rsum_ext. intros r Hr. destruct (round8_cases (path_cost S d r)) as [[H1 H2]|[H1 H2]].
  - rewrite H2. destruct (H r Hr) as [->|K]; [reflexivity|lra].
  - now rewrite H2.
Qed.

Lemma cheapest triv S d x y : wf_sys S -> solved_optimally triv S d x -> solved triv S d y ->
  user_cost S d (committed triv S x) <=
  user_cost S d (committed triv S y) + eps8 * (total (routes triv S) x + total (routes triv S) y).
Proof.
  intros W [P [HP [Fx Ho]]] [P' [HP' Fy]]. rewrite HP in HP'. injection HP' as <-.
  destruct (objective_user_cost _ _ _ _ _ W HP Fx) as [_ H1].
  destruct (objective_user_cost _ _ _ _ _ W HP Fy) as [H2 _]. specialize (Ho y Fy). lra.
Qed.

(** ** Members of aggregated nodes and virtual storages *)
Lemma chain_mid {A} (E : A -> A -> Prop) l a b m : chain E (l ++ a :: b :: m) -> E a b.
Proof. intros H. apply chain_app_r in H. cbn in H. tauto. Qed.

Lemma carries_memb S n r : route_facts S r -> is_flow_node (s_kind S n) = true ->
  clean_at S n -> carries S n r = memb n r.
Proof.
  intros F Hk C.
  unfold carries. destruct (s_kind S n) eqn:K; try discriminate; [| |reflexivity].
  - destruct (Nat.eqb_spec (rfirst r) n) as [<-|N].
    + destruct (membP (rfirst r) r) as [|H]; [reflexivity|]. exfalso. apply H, first_in, (rf_ne _ _ F).
    + destruct (membP n r) as [H|H]; [exfalso|reflexivity].
      destruct (pred_unique r n) as [p [Hp E]]; auto; [apply (rf_nodup _ _ F)|].
      specialize (E p). rewrite Nat.eqb_refl in E. apply pair_in_iff in E as [l [m E]].
      pose proof (rf_chain _ _ F) as Hc. rewrite E in Hc. apply chain_mid in Hc.
      destruct (C p) as [H1 _]; [apply (rf_domain _ _ F); assumption|]. now apply (H1 Hc).
  - destruct (Nat.eqb_spec (rlast r) n) as [<-|N].
    + destruct (membP (rlast r) r) as [|H]; [reflexivity|]. exfalso. apply H, last_in, (rf_ne _ _ F).
    + destruct (membP n r) as [H|H]; [exfalso|reflexivity].
      destruct (succ_unique r n) as [p [Hp E]]; auto; [apply (rf_nodup _ _ F)|].
      specialize (E p). rewrite Nat.eqb_refl in E. apply pair_in_iff in E as [l [m E]].
      pose proof (rf_chain _ _ F) as Hc. rewrite E in Hc. apply chain_mid in Hc.
      destruct (C p) as [_ H1]; [apply (rf_domain _ _ F); assumption|]. now apply (H1 Hc).
Qed.

Lemma clean_all S m : terminals_clean S -> clean_at S m.
Proof. intros C a E. split; intros H; [exact (proj1 (C a m H E))|exact (proj2 (C m a H (eq_sym E)))]. Qed.
Lemma clean_link S m : s_kind S m = KLink -> clean_at S m.
Proof. intros K a _. split; intros _; congruence. Qed.

(** A node that can be a member: it is in the graph and its flow counts every route it is on. *)
Definition member_ok (S : sys) (m : nat) : Prop :=
  In m (s_nodes S) /\ is_flow_node (s_kind S m) = true /\ clean_at S m.

Lemma committed_memb triv S x m : wf_sys S -> member_ok S m ->
  committed triv S x m == rsum (routes triv S) x (fun r => bq (memb m r)).
Proof.
  intros W [Hm [Hk C]]. rewrite committed_flow by assumption. apply rsum_ext. intros r Hr.
  rewrite carries_memb; [reflexivity|eapply routes_facts; eauto|exact Hk|exact C].
Qed.

Lemma factor_ratio triv S d x a m0 ms i mi fi f0 :
  wf_sys S -> solved triv S d x -> In a (s_nodes S) -> s_kind S a = KAggregated -> s_has_factors S a = true ->
  s_members S a = m0 :: ms -> hd_error (d_factors d a) = Some f0 ->
  member_ok S m0 -> member_ok S mi ->
  nth_error (m0 :: ms) i = Some mi -> nth_error (d_factors d a) i = Some fi ->
  committed triv S x m0 * fi == committed triv S x mi * f0.
Proof.
  intros W [P [HP [Hx HF]]] Ha Hk Hf Hms Hf0 M0 Mi Hi Hfi.
  destruct i as [|i].
  { cbn in Hi. injection Hi as ->. assert (f0 = fi) as -> by (destruct (d_factors d a); cbn in *; congruence). ring. }
  apply posed_inv in HP. destruct (pf_factor _ _ _ _ HP a Ha Hk Hf) as [l [Hl Hin]].
  unfold factor_rows in Hl. rewrite Hms in Hl. destruct (factors_usable (m0 :: ms) (d_factors d a)) eqn:Hu; [|discriminate].
  assert (~ fi == 0) as Hnz by (eapply factors_usable_nonzero; [exact Hu|]; eapply nth_error_In; exact Hfi). cbn in Hi. clear Hu.
  destruct (d_factors d a) as [|g fs] eqn:Ed; [discriminate|]. cbn in Hf0, Hfi. injection Hf0 as ->.
  unfold factors_norm in Hl. cbn [hd map tl] in Hl.
  assert (In (mi, f0 / fi) (combine ms (map (fun f => f0 / f) fs))) as Hc.
  { clear - Hi Hfi. revert fs i Hi Hfi. induction ms as [|m ms IH]; intros [|f fs] [|i] Hi Hfi; cbn in *; try discriminate.
    - injection Hi as ->. injection Hfi as ->. now left.
    - right. eauto. }
  destruct (mapM_In _ _ _ Hl _ Hc) as [r [Hr Hrl]]. apply set_row_inv in Hr as [-> _].
  apply Hin, HF in Hrl. unfold row_ok in Hrl. cbn [r_type r_lb r_ub bounds_ok fst snd] in Hrl.
  unfold row_value in Hrl. cbn [r_coef] in Hrl. rewrite map_app, qsum_app, !cols_sum in Hrl.
  rewrite !committed_memb by assumption.
  set (A := rsum (routes triv S) x (fun r => bq (memb m0 r))) in *.
  set (B := rsum (routes triv S) x (fun r => bq (memb mi r))) in *.
  assert (A == f0 / fi * B) as -> by lra. field. exact Hnz.
Qed.

(** Aggregated min/max rows. *)
Definition msum (x : nat -> Q) (m : list (nat * Q)) : Q := qsum (map (fun e => snd e * x (fst e)) m).

Lemma filter_all_true {A} (p : A -> bool) l : (forall a, In a l -> p a = true) -> filter p l = l.
Proof.
  induction l as [|a l IH]; intros H; cbn; [reflexivity|]. rewrite (H a) by now left. f_equal.
  apply IH. intros b Hb. apply H. now right.
Qed.

Lemma dict_set_fresh x m k v : ~ In k (map fst m) -> msum x (dict_set m k v) == v * x k + msum x m.
Proof.
  intros H. unfold dict_set, msum. cbn [map qsum fst snd]. apply Qplus_comp; [reflexivity|].
  rewrite filter_all_true; [reflexivity|]. intros [k' w] Hk. cbn. destruct (Nat.eqb_spec k' k) as [->|]; [|reflexivity].
  exfalso. apply H. apply in_map_iff. exists (k, w). auto.
Qed.

Lemma dict_set_keys m k v j : In j (map fst (dict_set m k v)) -> j = k \/ In j (map fst m).
Proof.
  unfold dict_set. cbn [map fst In]. intros [H|H]; [now left|right].
  apply in_map_iff in H as [e [E H]]. apply filter_In in H as [H _]. apply in_map_iff. eauto.
Qed.

Lemma agg_inner x n w (cs : list (nat * list nat)) : forall m,
  NoDup (map fst cs) ->
  (forall c, In c cs -> memb n (snd c) = true -> ~ In (fst c) (map fst m)) ->
  let m' := fold_left (fun m c => if memb n (snd c) then dict_set m (fst c) w else m) cs m in
  msum x m' == msum x m + w * qsum (map (fun c => bq (memb n (snd c)) * x (fst c)) cs) /\
  (forall j, In j (map fst m') -> In j (map fst m) \/ exists c, In c cs /\ fst c = j /\ memb n (snd c) = true).
Proof.
  induction cs as [|c cs IH]; intros m Hn Hk; cbn [fold_left map qsum].
  - split; [ring|auto].
  - cbn [map] in Hn. inversion Hn as [|? ? Hc Hn']; subst.
    destruct (memb n (snd c)) eqn:E.
    + destruct (IH (dict_set m (fst c) w) Hn') as [H1 H2].
      { intros c' Hc' E' Hin. apply dict_set_keys in Hin as [Hin|Hin].
        - apply Hc. rewrite <- Hin. now apply in_map.
        - apply (Hk c'); auto. now right. }
      split.
      * rewrite H1, dict_set_fresh by (apply Hk; auto; now left). unfold bq at 2. ring.
      * intros j Hj. destruct (H2 j Hj) as [Hj'|[c' [A [B C]]]].
        -- apply dict_set_keys in Hj' as [->|Hj']; [right; exists c; repeat split; auto; now left|now left].
        -- right. exists c'. repeat split; auto. now right.
    + destruct (IH m Hn') as [H1 H2].
      { intros c' Hc'. apply Hk. now right. }
      split.
      * rewrite H1. unfold bq at 2. ring.
      * intros j Hj. destruct (H2 j Hj) as [Hj'|[c' [A [B C]]]]; [now left|].
        right. exists c'. repeat split; auto. now right.
Qed.

Lemma one_member_tail n l r : one_member (n :: l) r -> one_member l r.
Proof.
  intros H i j a b Ha Hb Hi Hj. specialize (H (Datatypes.S i) (Datatypes.S j) a b Ha Hb Hi Hj). congruence.
Qed.

Lemma one_member_head n l r b : one_member (n :: l) r -> In n r -> In b l -> ~ In b r.
Proof.
  intros H Hn Hb Hr. apply In_nth_error in Hb as [j Hj].
  specialize (H 0%nat (Datatypes.S j) n b eq_refl Hj Hn Hr). discriminate.
Qed.

Lemma agg_outer x rs (l : list (nat * Q)) : forall m,
  (forall r, In r rs -> one_member (map fst l) r) ->
  (forall c, In c (enumerate rs) -> In (fst c) (map fst m) -> forall n, In n (map fst l) -> memb n (snd c) = false) ->
  msum x (fold_left (fun m nw =>
    fold_left (fun m c => if memb (fst nw) (snd c) then dict_set m (fst c) (snd nw) else m) (enumerate rs) m) l m)
  == msum x m + qsum (map (fun nw => snd nw * rsum rs x (fun r => bq (memb (fst nw) r))) l).
Proof.
  induction l as [|[n w] l IH]; intros m H1 H2; cbn [fold_left map qsum fst snd]; [ring|].
  destruct (agg_inner x n w (enumerate rs) m) as [E K].
  { rewrite enumerate_map_fst. apply seq_NoDup. }
  { intros c Hc Hm Hin. rewrite (H2 c Hc Hin n) in Hm; [discriminate|now left]. }
  rewrite IH.
  - rewrite E. unfold rsum at 2. ring.
  - intros r Hr. exact (one_member_tail _ _ _ (H1 r Hr)).
  - intros c Hc Hin n' Hn'. destruct (K _ Hin) as [Hm|[c' [A [B C]]]].
    + apply (H2 c Hc Hm). now right.
    + assert (snd c = snd c') as Ecc.
      { destruct c as [k r], c' as [k' r']. cbn in B |- *. subst k'.
        rewrite (enumerate_nth rs [] _ _ Hc). symmetry. apply (enumerate_nth rs [] _ _ A). }
      rewrite Ecc. destruct (membP n' (snd c')) as [Hin'|]; [|reflexivity]. exfalso.
      assert (In (snd c') rs) as Hrs by (destruct c' as [k' r']; eapply enumerate_snd; eauto).
      destruct (membP n (snd c')) as [Hn|]; [|discriminate].
      exact (one_member_head _ _ _ n' (H1 _ Hrs) Hn Hn' Hin').
Qed.

Lemma combine_map_fst_incl {A B} (l : list A) (m : list B) : length l = length m -> map fst (combine l m) = l.
Proof. apply map_fst_combine. Qed.

Lemma agg_flow_bounds triv S d x a : wf_sys S -> solved triv S d x -> In a (s_nodes S) -> s_kind S a = KAggregated ->
  length (weights_of S a) = length (s_members S a) ->
  (forall m, In m (s_members S a) -> member_ok S m) ->
  (forall r, In r (routes triv S) -> one_member (s_members S a) r) ->
  at_least (d_min d a) (aggregated_flow S (committed triv S x) a) /\
  at_most (aggregated_flow S (committed triv S x) a) (d_max d a).
Proof.
  intros W [P [HP [_ HF]]] Ha Hk Hlen Hm Hone. apply posed_inv in HP.
  destruct (pf_agg _ _ _ _ HP a Ha Hk) as [r [Hr Hin]]. apply HF in Hin. unfold agg_row in Hr.
  destruct (flow_bounds (d_min d a) (d_max d a)) as [[t lb] ub] eqn:E. apply set_row_inv in Hr as [-> _].
  unfold row_ok in Hin. cbn [r_type r_lb r_ub] in Hin.
  eapply flow_bounds_ok; [exact E|]. eapply bounds_ok_ext; [|exact Hin].
  unfold row_value. cbn [r_coef].
  rewrite (qsum_Permutation _ (map (fun c => snd c * x (fst c)) (agg_matrix S (routes triv S) a))).
  2:{ apply Permutation_map. apply Permutation_sym, isort_perm. }
  fold (msum x (agg_matrix S (routes triv S) a)). unfold agg_matrix.
  rewrite agg_outer.
  - unfold msum. cbn [map qsum]. unfold aggregated_flow. rewrite Qplus_0_l. apply qsum_map_ext.
    intros [n w] Hn. cbn [fst snd]. rewrite committed_memb; [ring|exact W|]. apply Hm. eapply in_combine_l; eauto.
  - intros r Hr. rewrite map_fst_combine by now symmetry. now apply Hone.
  - intros c _ [].
Qed.

(** ** Cross-domain rows *)
Definition supplies (S : sys) (o i : nat) : bool :=
  is_input (s_kind S i) && negb (Nat.eqb (s_domain S o) (s_domain S i)) &&
  existsb (fun e => Nat.eqb (fst e) o && Nat.eqb (snd e) i) (s_edges S).

Lemma supplies_iff S o i : supplies S o i = true <->
  s_kind S i = KInput /\ s_domain S o <> s_domain S i /\ In (o, i) (s_edges S).
Proof.
  unfold supplies. rewrite !andb_true_iff, existsb_exists, negb_true_iff, Nat.eqb_neq. split.
  - intros [[H1 H2] [[u v] [H3 H4]]]. cbn in H4. apply andb_true_iff in H4 as [H4 H5].
    apply Nat.eqb_eq in H4. apply Nat.eqb_eq in H5. subst. split; [destruct (s_kind S i); try discriminate; reflexivity|auto].
  - intros [H1 [H2 H3]]. rewrite H1. repeat split; auto. exists (o, i). cbn. now rewrite !Nat.eqb_refl.
Qed.

Lemma cross_spec triv S : wf_sys S ->
  NoDup (cross_domain_routes triv S) /\
  forall r, In r (cross_domain_routes triv S) <->
    exists o i, r = [o; i] /\ In o (s_nodes S) /\ s_kind S o = KOutput /\ In i (s_nodes S) /\ s_kind S i = KInput /\
      In (o, i) (s_edges S) /\ s_domain S o <> s_domain S i.
Proof.
  intros W. unfold cross_domain_routes.
  destruct (find_all_routes triv (net_of S) _ _ None (Some 2%nat) Different) as [l|] eqn:E.
  2:{ exfalso. eapply find_all_routes_defined; [|exact E]. discriminate. }
  destruct (fun H => find_all_routes_spec _ _ _ _ _ _ _ _ (wf_net_of S W) H E) as [Hn Hin]; [exact I|]. split; [exact Hn|].
  intros r. rewrite Hin. split.
  - intros [o [i [[Ho Ko] [[Hi Ki] [Hp [_ [Hl [a [b [Ha [Hb Hd]]]]]]]]]]]. cbn [net_of n_nodes n_domain] in *.
    assert (s_kind S o = KOutput) as Ko' by (destruct (s_kind S o); try discriminate; reflexivity).
    assert (s_kind S i = KInput) as Ki' by (destruct (s_kind S i); try discriminate; reflexivity).
    destruct Hp as [[[H1 [H2 H3]] [H4 H5]]|[_ [-> ->]]]; [|congruence].
    specialize (Hl _ eq_refl). destruct r as [|y [|z [|w r]]]; cbn [length] in *; try lia.
    cbn in H1, H2. injection H1 as ->. subst z. exists o, i. cbn in H3. unfold edge in H3. cbn in H3.
    repeat split; auto; [tauto|]. destruct Ha as [->|[->|[]]], Hb as [->|[->|[]]]; congruence.
  - intros [o [i [-> [Ho [Ko [Hi [Ki [He Hd]]]]]]]]. exists o, i. cbn [net_of n_nodes n_domain n_edges].
    split; [split; [exact Ho|now rewrite Ko]|]. split; [split; [exact Hi|now rewrite Ki]|].
    split; [left; split; [split; [reflexivity|split; [reflexivity|cbn; tauto]]|split]|].
    + constructor; [intros [->|[]]; congruence|]. constructor; [intros []|constructor].
    + cbn. lia.
    + split; [intros p Hp; discriminate|]. split; [intros m Hm; injection Hm as <-; cbn; lia|].
      exists o, i. split; [now left|]. split; [right; now left|exact Hd].
Qed.

Lemma cross_cols_sum S rs cross x o (g : nat -> Q) :
  (forall r, In r cross -> exists a b, r = [a; b]) ->
  qsum (map (fun c => snd c * x (fst c)) (map (fun cv => (fst cv, 1 / snd cv)) (cross_cols S rs cross o)))
  == qsum (map (fun r => bq (Nat.eqb (rfirst r) o) * (1 / s_conv S (nth 1 r 0%nat) *
        rsum rs x (fun q => bq (Nat.eqb (rfirst q) (nth 1 r 0%nat))))) cross).
Proof.
  induction cross as [|r cross IH]; intros H; cbn [cross_cols flat_map map qsum]; [reflexivity|].
  destruct (H r (or_introl eq_refl)) as [a [b ->]]. rewrite !map_app, qsum_app.
  fold (cross_cols S rs cross o). rewrite IH by (intros q Hq; apply H; now right).
  apply Qplus_comp; [|reflexivity]. cbn [rfirst hd nth]. destruct (Nat.eqb a o); cbn [map qsum].
  - rewrite !map_map. cbn [fst snd]. rewrite <- (cols_sum rs x (fun q => Nat.eqb (rfirst q) b)). rewrite map_map. cbn [fst snd]. unfold bq. ring.
  - unfold bq. ring.
Qed.

Lemma cross_balance triv S d x o : wf_sys S -> solved triv S d x -> In o (s_nodes S) -> s_kind S o = KOutput ->
  (exists i, supplies S o i = true) ->
  committed triv S x o == qsum (map (fun i => committed triv S x i / s_conv S i) (filter (supplies S o) (s_nodes S))).
Proof.
  intros W [P [HP [_ HF]]] Ho Hk [i0 Hi0]. apply posed_inv in HP.
  destruct (pf_flow _ _ _ _ HP o Ho) as [l [Hl Hin]]; [now rewrite Hk|].
  unfold non_storage_rows in Hl.
  assert (is_flow_node (s_kind S o) = true) as Hfn by now rewrite Hk.
  pose proof (node_cols_carries S (routes triv S) x o Hfn) as HS. unfold node_cols in *. rewrite Hk in *.
  destruct (cross_spec triv S W) as [Cn Ci].
  assert (in_cross (cross_domain_routes triv S) o = true) as Hic.
  { apply existsb_exists. apply supplies_iff in Hi0 as [H1 [H2 H3]]. exists [o; i0].
    split; [|cbn; apply Nat.eqb_refl]. apply Ci. exists o, i0. repeat split; auto. now apply (wf_ends _ W) in H3. }
  destruct (cols (routes triv S) (fun r => Nat.eqb (rlast r) o)) as [|c cs] eqn:Ec; [discriminate|]. rewrite <- Ec in Hl.
  destruct (flow_bounds (d_min d o) (d_max d o)) as [[t lb] ub].
  destruct (set_row (map (fun c0 => (c0, 1)) (cols (routes triv S) (fun r => Nat.eqb (rlast r) o))) t lb ub) as [r1|]; [|discriminate].
  rewrite Hic in Hl.
  destruct (set_row (map (fun c0 => (c0, - (1))) (cols (routes triv S) (fun r => Nat.eqb (rlast r) o)) ++ _) FX (Fin 0) (Fin 0)) as [r2|] eqn:E2; [|discriminate].
  injection Hl as <-. assert (In r2 (lp_rows P)) as Hr2 by (apply Hin; right; now left).
  apply HF in Hr2. apply set_row_inv in E2 as [-> _]. unfold row_ok in Hr2. cbn [r_type r_lb bounds_ok] in Hr2.
  unfold row_value in Hr2. cbn [r_coef] in Hr2. rewrite map_app, qsum_app, cols_sum in Hr2.
  rewrite cross_cols_sum in Hr2; [|exact (fun _ => 0)|].
  2:{ intros r Hr. apply Ci in Hr as [a [b [-> _]]]. eauto. }
  rewrite (committed_flow triv S x o W Ho) by now rewrite Hk. unfold carries. rewrite Hk.
  rewrite <- qsum_filter in Hr2.
  assert (qsum (map (fun r => 1 / s_conv S (nth 1 r 0%nat) * rsum (routes triv S) x (fun q => bq (Nat.eqb (rfirst q) (nth 1 r 0%nat))))
     (filter (fun r => Nat.eqb (rfirst r) o) (cross_domain_routes triv S))) ==
     qsum (map (fun i => committed triv S x i / s_conv S i) (filter (supplies S o) (s_nodes S)))) as <-; [|lra].
  rewrite (qsum_map_ext (fun i => committed triv S x i / s_conv S i)
     (fun i => 1 / s_conv S i * rsum (routes triv S) x (fun q => bq (Nat.eqb (rfirst q) i)))).
  2:{ intros i Hi. apply filter_In in Hi as [Hi Hs]. apply supplies_iff in Hs as [Hs _].
      rewrite committed_flow by (auto; now rewrite Hs). unfold carries. rewrite Hs. unfold Qdiv. ring. }
  rewrite <- (map_map (fun r => nth 1 r 0%nat) (fun i => 1 / s_conv S i * rsum (routes triv S) x (fun q => bq (Nat.eqb (rfirst q) i)))).
  apply qsum_Permutation, Permutation_map, NoDup_Permutation.
  - apply NoDup_map_inj; [|now apply NoDup_filter]. intros r q Hr Hq E.
    apply filter_In in Hr as [Hr Er]. apply filter_In in Hq as [Hq Eq].
    apply Ci in Hr as [a [b [-> _]]]. apply Ci in Hq as [a' [b' [-> _]]]. cbn in *.
    apply Nat.eqb_eq in Er. apply Nat.eqb_eq in Eq. congruence.
  - apply NoDup_filter, (wf_nodes _ W).
  - intros i. rewrite in_map_iff, filter_In, supplies_iff. split.
    + intros [r [E Hr]]. apply filter_In in Hr as [Hr Er]. apply Ci in Hr as [a [b [-> H]]]. cbn in *.
      apply Nat.eqb_eq in Er. subst. tauto.
    + intros [Hi [H1 [H2 H3]]]. exists [o; i]. split; [reflexivity|]. apply filter_In. split; [|cbn; apply Nat.eqb_refl].
      apply Ci. exists o, i. repeat split; auto.
Qed.

(** ** Virtual storage rows *)
Lemma index_of_sum n l fs : NoDup l -> length fs = length l ->
  match index_of n l with Some i => nth i fs 0 | None => 0 end == qsum (map (fun mf => bq (Nat.eqb n (fst mf)) * snd mf) (combine l fs)).
Proof.
  revert fs. induction l as [|m l IH]; intros [|f fs] Hn Hl; cbn [length] in Hl; try discriminate; [reflexivity|].
  cbn [index_of combine map qsum fst snd]. inversion Hn as [|? ? Hm Hn']; subst.
  rewrite (Nat.eqb_sym n m). destruct (Nat.eqb_spec m n) as [->|N].
  - cbn [nth]. rewrite qsum_map_zero; [unfold bq; ring|]. intros [m' g] Hin. cbn [fst snd].
    destruct (Nat.eqb_spec n m') as [->|]; [exfalso; apply Hm; eapply in_combine_l; eauto|unfold bq; ring].
  - rewrite <- IH by (auto; congruence). destruct (index_of n l); cbn [nth]; unfold bq; ring.
Qed.

Definition oval (o : option Q) : Q := match o with Some q => q | None => 0 end.

Lemma virtual_entry_sum S v r :
  oval (virtual_entry S v r) == qsum (map (fun n => match index_of n (s_members S v) with
      | Some i => nth i (s_vfactors S v) 0 | None => 0 end) r).
Proof.
  unfold virtual_entry.
  match goal with |- oval (fold_left ?g _ _) == ?s =>
    enough (forall acc, oval (fold_left g r acc) == oval acc + s) as H by (rewrite H; cbn [oval]; ring) end.
  induction r as [|n r IH]; intros acc; cbn [fold_left map qsum]; [ring|].
  rewrite IH. destruct (index_of n (s_members S v)); [|ring]. destruct acc; cbn [oval]; ring.
Qed.

Lemma virtual_entry_memb S v r : NoDup (s_members S v) -> length (s_vfactors S v) = length (s_members S v) -> NoDup r ->
  oval (virtual_entry S v r) == qsum (map (fun mf => snd mf * bq (memb (fst mf) r)) (combine (s_members S v) (s_vfactors S v))).
Proof.
  intros Hn Hl Hr. rewrite virtual_entry_sum.
  rewrite (qsum_map_ext _ (fun n => qsum (map (fun mf => bq (Nat.eqb n (fst mf)) * snd mf) (combine (s_members S v) (s_vfactors S v)))))
    by (intros; now apply index_of_sum).
  rewrite (qsum_swap (fun n mf => bq (Nat.eqb n (fst mf)) * snd mf)). apply qsum_map_ext. intros [m f] _. cbn [fst snd].
  rewrite qsum_map_scale_r.
  rewrite (qsum_map_ext _ (fun n => bq (Nat.eqb m n))) by (intros; now rewrite Nat.eqb_sym).
  rewrite qsum_indicator_memb by exact Hr. ring.
Qed.

Lemma virtual_entries_value S rs x v :
  qsum (map (fun c => snd c * x (fst c)) (flat_map (fun c => match virtual_entry S v (snd c) with
      | Some f => [(fst c, - f)] | None => [] end) (enumerate rs))) == - rsum rs x (fun r => oval (virtual_entry S v r)).
Proof.
  unfold rsum. induction (enumerate rs) as [|[k r] cs IH]; cbn [flat_map map qsum fst snd]; [ring|].
  rewrite map_app, qsum_app, IH. destruct (virtual_entry S v r); cbn [map qsum fst snd oval]; ring.
Qed.

Lemma virtual_flow_sum S fl v :
  virtual_flow S fl v == - qsum (map (fun mf => snd mf * fl (fst mf)) (combine (s_members S v) (s_vfactors S v))).
Proof.
  unfold virtual_flow. set (l := combine (s_members S v) (s_vfactors S v)). clearbody l.
  assert (forall acc, fold_left (fun acc nf => acc - snd nf * fl (fst nf)) l acc == acc - qsum (map (fun mf => snd mf * fl (fst mf)) l)) as H.
  { induction l as [|c l IH]; intros acc; cbn [fold_left map qsum]; [ring|]. rewrite IH. ring. }
  rewrite H. ring.
Qed.

Lemma virtual_row_bounds triv S d P x v : wf_sys S -> posed triv S d = Ok P -> feasible P x ->
  In v (s_nodes S) -> s_kind S v = KVirtual ->
  NoDup (s_members S v) -> length (s_vfactors S v) = length (s_members S v) ->
  (forall m, In m (s_members S v) -> member_ok S m) ->
  let '(t, lb, ub) := virtual_bounds (d_active d v) (d_vol d v) (d_minvol d v) (d_maxvol d v) (d_days d) in
  bounds_ok t lb ub (virtual_flow S (committed triv S x) v).
Proof.
  intros W HP [_ HF] Hv Hk Hn Hl Hm. apply posed_inv in HP.
  destruct (pf_virtual _ _ _ _ HP v Hv Hk) as [r [Hr Hin]]. apply HF in Hin. unfold virtual_row in Hr.
  destruct (virtual_bounds (d_active d v) (d_vol d v) (d_minvol d v) (d_maxvol d v) (d_days d)) as [[t lb] ub].
  apply set_row_inv in Hr as [-> _]. unfold row_ok in Hin. cbn [r_type r_lb r_ub] in Hin.
  eapply bounds_ok_ext; [|exact Hin]. unfold row_value. cbn [r_coef].
  rewrite virtual_entries_value, virtual_flow_sum. apply Qopp_comp.
  rewrite (rsum_ext _ _ _ (fun r => qsum (map (fun mf => snd mf * bq (memb (fst mf) r)) (combine (s_members S v) (s_vfactors S v))))).
  2:{ intros r Hr. apply virtual_entry_memb; auto. apply (rf_nodup S). eapply routes_facts; eauto. }
  rewrite (rsum_sum (routes triv S) x (fun mf r => snd mf * bq (memb (fst mf) r))).
  apply qsum_map_ext. intros [m f] Hc. cbn [fst snd]. rewrite rsum_scale, committed_memb; [reflexivity|exact W|].
  apply Hm. eapply in_combine_l; eauto.
Qed.

(** ** Zero is allowed *)
Lemma row_value_zero r : row_value (fun _ => 0) r == 0.
Proof. unfold row_value. apply qsum_map_zero. intros; ring. Qed.

Lemma zero_flow_bounds mn mx : ext_le_q mn 0 -> q_le_ext 0 mx ->
  let '(t, lb, ub) := flow_bounds mn mx in bounds_ok t lb ub 0.
Proof.
  unfold flow_bounds, constraint_type. destruct mn as [|a|], mx as [|b|]; cbn [eround8 near ext_le_q q_le_ext]; try tauto;
    cbn [bounds_ok ext_le_q q_le_ext]; unfold round8; intros Ha Hb.
  - destruct (qltbP (qabs b) eps8); lra.
  - destruct (qltbP (qabs a) eps8) as [H|H]; destruct (qltbP (qabs b) eps8) as [K|K];
    unfold qabs in H, K; qif_in H; qif_in K;
    match goal with |- context [qltb (qabs ?e) eps8] => destruct (qltbP (qabs e) eps8) as [L|L]; unfold qabs in L; qif_in L end;
    cbn [bounds_ok ext_le_q q_le_ext]; unfold eps8 in *; try split; lra.
  - destruct (qltbP (qabs a) eps8); lra.
Qed.

Lemma zero_storage_bounds vol mn mx days : 0 < days ->
  let '(t, lb, ub) := storage_bounds vol mn mx days in bounds_ok t lb ub 0.
Proof.
  intros Hd. unfold storage_bounds.
  destruct (match mx with Fin m => qeqb m mn | _ => false end); [cbn; reflexivity|].
  assert (0 < / days) as Hi by now apply Qinv_lt_0_compat.
  assert (- qmax (vol - mn) 0 / days <= 0) as HL.
  { unfold Qdiv. pose proof (qmax_r (vol - mn) 0). nra. }
  assert (round8 (- qmax (vol - mn) 0 / days) <= 0) as HL' by (destruct (round8_cases (- qmax (vol - mn) 0 / days)) as [[_ ->]|[_ ->]]; lra).
  assert (round8 (- qmax (vol - mn) 0 / days) == 0 \/ round8 (- qmax (vol - mn) 0 / days) <= - eps8) as HL2.
  { destruct (round8_cases (- qmax (vol - mn) 0 / days)) as [[_ ->]|[K ->]]; [left; reflexivity|right].
    unfold qabs in K. qif_in K; lra. }
  revert HL' HL2. generalize (round8 (- qmax (vol - mn) 0 / days)). clear HL. intros lb HL HL2.
  unfold constraint_type. destruct mx as [|m|]; cbn [near].
  - match goal with |- context [qltb (qabs ?e) eps8] => destruct (qltbP (qabs e) eps8) as [L|L]; unfold qabs in L; qif_in L end;
    cbn [bounds_ok ext_le_q q_le_ext]; try split; lra.
  - assert (0 <= round8 (qmax (m - vol) 0 / days)) as HU.
    { assert (0 <= qmax (m - vol) 0 / days) by (unfold Qdiv; pose proof (qmax_r (m - vol) 0); nra).
      destruct (round8_cases (qmax (m - vol) 0 / days)) as [[_ ->]|[_ ->]]; lra. }
    revert HU. generalize (round8 (qmax (m - vol) 0 / days)). intros ub HU.
    match goal with |- context [qltb (qabs ?e) eps8] => destruct (qltbP (qabs e) eps8) as [L|L]; unfold qabs in L; qif_in L end;
    cbn [bounds_ok ext_le_q q_le_ext]; try split; lra.
  - cbn [bounds_ok ext_le_q]. exact HL.
Qed.

Lemma zero_feasible triv S d P : posed triv S d = Ok P -> 0 < d_days d ->
  (forall n, In n (s_nodes S) -> is_flow_node (s_kind S n) = true \/ s_kind S n = KAggregated ->
     ext_le_q (d_min d n) 0 /\ q_le_ext 0 (d_max d n)) ->
  feasible P (fun _ => 0).
Proof.
  intros HP Hd Hb. apply posed_inv in HP. split; [intros; lra|].
  intros r Hr. unfold row_ok. apply bounds_ok_ext with (v := 0); [symmetry; apply row_value_zero|].
  destruct (pf_only _ _ _ _ HP r Hr) as [[n [l [H1 [H2 [H3 H4]]]]]|[[n [H1 [H2 H3]]]|[[n [H1 [H2 H3]]]|[[n [l [H1 [H2 [H3 [H4 H5]]]]]]|[n [H1 [H2 H3]]]]]]].
  - unfold non_storage_rows in H3. destruct (Hb n H1 (or_introl H2)) as [B1 B2]. pose proof (zero_flow_bounds _ _ B1 B2) as Z.
    destruct (node_cols S (routes triv S) n); [discriminate|].
    destruct (flow_bounds (d_min d n) (d_max d n)) as [[t lb] ub].
    destruct (set_row (map (fun c => (c, 1)) (n0 :: l0)) t lb ub) as [r1|] eqn:E1; [|discriminate].
    apply set_row_inv in E1 as [-> _].
    destruct (in_cross _ n).
    + match type of H3 with match ?s with _ => _ end = _ => destruct s as [r2|] eqn:E2; [|discriminate] end.
      apply set_row_inv in E2 as [-> _]. injection H3 as <-. destruct H4 as [<-|[<-|[]]]; [exact Z|]. cbn. reflexivity.
    + injection H3 as <-. destruct H4 as [<-|[]]. exact Z.
  - unfold storage_row in H3. pose proof (zero_storage_bounds (d_vol d n) (d_minvol d n) (d_maxvol d n) (d_days d) Hd) as Z.
    destruct (storage_bounds (d_vol d n) (d_minvol d n) (d_maxvol d n) (d_days d)) as [[t lb] ub].
    apply set_row_inv in H3 as [-> _]. exact Z.
  - unfold virtual_row in H3. pose proof (zero_storage_bounds (d_vol d n) (d_minvol d n) (d_maxvol d n) (d_days d) Hd) as Z.
    assert (let '(t, lb, ub) := virtual_bounds (d_active d n) (d_vol d n) (d_minvol d n) (d_maxvol d n) (d_days d) in bounds_ok t lb ub 0) as Z2.
    { unfold virtual_bounds. destruct (match d_maxvol d n with Fin m => qeqb m (d_minvol d n) | _ => false end); [cbn; reflexivity|].
      destruct (negb (d_active d n)); [exact I|exact Z]. }
    destruct (virtual_bounds (d_active d n) (d_vol d n) (d_minvol d n) (d_maxvol d n) (d_days d)) as [[t lb] ub].
    apply set_row_inv in H3 as [-> _]. exact Z2.
  - unfold factor_rows in H4. destruct (s_members S n) as [|m0 ms]; [discriminate|]. destruct (factors_usable _ _); [|discriminate].
    destruct (mapM_In_inv _ _ _ H4 r H5) as [c [E _]]. apply set_row_inv in E as [-> _]. cbn. reflexivity.
  - unfold agg_row in H3. destruct (Hb n H1 (or_intror H2)) as [B1 B2]. pose proof (zero_flow_bounds _ _ B1 B2) as Z.
    destruct (flow_bounds (d_min d n) (d_max d n)) as [[t lb] ub]. apply set_row_inv in H3 as [-> _]. exact Z.
Qed.

(** ** What the storage row allows *)
Lemma storage_bounds_sound vol mn mx days t lb ub v : 0 < days ->
  storage_bounds vol mn mx days = (t, lb, ub) -> mx <> NInf -> bounds_ok t lb ub v ->
  - qmax (vol - mn) 0 / days <= v /\
  match mx with Fin m => v <= qmax (m - vol) 0 / days | _ => True end.
Proof.
  intros Hd HS Hmx HB. assert (0 < / days) as Hi by now apply Qinv_lt_0_compat.
  assert (0 <= qmax (vol - mn) 0) as P1 by apply qmax_r.
  assert (- qmax (vol - mn) 0 / days <= 0) as L by (unfold Qdiv; nra).
  unfold storage_bounds in HS. set (a := - qmax (vol - mn) 0 / days) in *.
  assert (0 < eps8) as He by (unfold eps8; lra).
  assert (round8 a == a \/ (round8 a == 0 /\ a <= 0)) as A.
  { destruct (round8_cases a) as [[K1 K2]|[K1 K2]]; rewrite K2; [right; split; [reflexivity|exact L]|left; reflexivity]. }
  destruct mx as [|m|]; [congruence| |].
  - assert (0 <= qmax (m - vol) 0) as P2 by apply qmax_r.
    set (b := qmax (m - vol) 0 / days) in *. assert (0 <= b) as U by (unfold b, Qdiv; nra).
    assert (round8 b == b \/ (round8 b == 0 /\ 0 <= b)) as B.
    { destruct (round8_cases b) as [[K1 K2]|[K1 K2]]; rewrite K2; [right; split; [reflexivity|exact U]|left; reflexivity]. }
    destruct (qeqbP m mn) as [E|E].
    + injection HS as <- <- <-. cbn in HB. lra.
    + assert (round8 a == 0 \/ eps8 <= - round8 a) as A'.
      { destruct (round8_cases a) as [[K1 K2]|[K1 K2]]; rewrite K2; [left; reflexivity|right].
        unfold qabs in K1. qif_in K1; lra. }
      assert (round8 b == 0 \/ eps8 <= round8 b) as B'.
      { destruct (round8_cases b) as [[K1 K2]|[K1 K2]]; rewrite K2; [left; reflexivity|right].
        unfold qabs in K1. qif_in K1; lra. }
      injection HS as <- <- <-. clearbody a b.
      unfold constraint_type in HB. cbn [near] in HB.
      destruct (qltbP (qabs (round8 a - round8 b)) eps8) as [N|N]; unfold qabs in N; qif_in N;
        cbn [bounds_ok ext_le_q q_le_ext] in HB; split; lra.
  - injection HS as <- <- <-. clearbody a. unfold constraint_type in HB. cbn [near] in HB.
    cbn [bounds_ok ext_le_q] in HB. split; [lra|exact I].
Qed.

Lemma storage_flow_limits triv S d x st : wf_sys S -> solved triv S d x -> 0 < d_days d ->
  In st (s_nodes S) -> s_kind S st = KStorage -> d_maxvol d st <> NInf ->
  - qmax (d_vol d st - d_minvol d st) 0 / d_days d <= committed triv S x st /\
  match d_maxvol d st with Fin m => committed triv S x st <= qmax (m - d_vol d st) 0 / d_days d | _ => True end.
Proof.
  intros W [P [HP HF]] Hd Hs Hk Hm. pose proof (storage_row_bounds triv S d P x st W HP HF Hs Hk) as HB.
  destruct (storage_bounds _ _ _ _) as [[t lb] ub] eqn:E.
  eapply storage_bounds_sound; eauto.
Qed.
