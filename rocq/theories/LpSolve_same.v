(** The two problems compared: bounds, reported flows, costs, and when the second can be posed. *)
From Verif Require Import Base Paths Sorting Routes_model Routes_spec Routes_proofs LP_model Sys_model
  RouteLP_model RouteLP_spec RouteLP_proofs RouteLP_flow EdgeLP_proofs EdgeLP_posed LpSolve_model LpSolve_spec LpSolve_proofs.
From Coq Require Import Sorting.Permutation.
Open Scope Q_scope.

(** ** Bounds *)
Lemma no_trace_round v : no_trace v -> round8 v == v.
Proof.
  intros H. unfold round8. destruct (qltbP (qabs v) eps8) as [A|A]; [|reflexivity].
  unfold no_trace in H. unfold qabs in A. qif_in A; unfold eps8 in A; destruct H as [H|[H|H]]; lra.
Qed.
Global Instance no_trace_Proper : Proper (Qeq ==> iff) no_trace.
Proof. intros a b E. unfold no_trace. rewrite E. reflexivity. Qed.
Lemma settled_Fin a a' b b' : a == a' -> b == b' -> settled (Fin a) (Fin b) -> settled (Fin a') (Fin b').
Proof. intros Ea Eb. unfold settled, settled_end. now rewrite Ea, Eb. Qed.

Lemma settled_flow mn mx v : settled mn mx -> (ok3 (flow_bounds mn mx) v <-> ext_le_q mn v /\ q_le_ext v mx).
Proof.
  intros [H1 [H2 H3]]. unfold flow_bounds, ok3, constraint_type.
  destruct mn as [|a|], mx as [|b|]; cbn [settled_end] in *; cbn [eround8 near];
    try (cbn [bounds_ok ext_le_q q_le_ext]; tauto).
  - cbn [bounds_ok ext_le_q q_le_ext]. rewrite (no_trace_round _ H2). tauto.
  - destruct (qltbP (qabs (round8 a - round8 b)) eps8) as [A|A]; cbn [bounds_ok ext_le_q q_le_ext].
    + rewrite (no_trace_round _ H1). rewrite (no_trace_round a H1), (no_trace_round b H2) in A.
      assert (b - a == 0) as E. { destruct H3 as [H3|[H3|H3]]; [exact H3| |]; unfold qabs in A; qif_in A; unfold eps8 in A; lra. }
      split; [intros; split; lra|intros [X Y]; lra].
    + rewrite (no_trace_round _ H1), (no_trace_round _ H2). reflexivity.
  - cbn [bounds_ok ext_le_q q_le_ext]. rewrite (no_trace_round _ H1). tauto.
Qed.

Lemma settled_storage d n v : 0 < d_days d -> settled_store d n -> (gstore d n v <-> lstore d n v).
Proof.
  intros HD [H1 H2]. unfold gstore, lstore, storage_bounds, volume_lb, volume_ub.
  assert (qmax (d_vol d n - d_minvol d n) 0 == d_vol d n - d_minvol d n) as EA by qmm.
  destruct (d_maxvol d n) as [|m|]; [contradiction| |].
  - destruct H2 as [H2 H3]. assert (qmax (m - d_vol d n) 0 == m - d_vol d n) as EB by qmm.
    destruct (qeqbP m (d_minvol d n)) as [E|E].
    + cbn [ok3 bounds_ok ext_le_q q_le_ext]. rewrite EA.
      setoid_replace (d_vol d n - d_minvol d n) with 0 by lra. setoid_replace (m - d_vol d n) with 0 by lra.
      setoid_replace (- 0 / d_days d) with 0 by (field; lra). try setoid_replace (0 / d_days d) with 0 by (field; lra).
      split; [intros ->; split; lra|intros [X Y]; lra].
    + pose proof (settled_flow (Fin (- qmax (d_vol d n - d_minvol d n) 0 / d_days d)) (Fin (qmax (m - d_vol d n) 0 / d_days d)) v) as K.
      unfold flow_bounds in K. cbn [eround8] in K. rewrite K.
      * cbn [ext_le_q q_le_ext]. rewrite EB. reflexivity.
      * eapply settled_Fin; [| |exact H3]; [now rewrite EA|now rewrite EB].
  - pose proof (settled_flow (Fin (- qmax (d_vol d n - d_minvol d n) 0 / d_days d)) PInf v) as K.
    unfold flow_bounds in K. cbn [eround8] in K. rewrite K; [reflexivity|].
    unfold settled. cbn [settled_end] in *. rewrite EA. tauto.
Qed.

Lemma settled_virtual d n v : 0 < d_days d ->
  (if d_active d n then settled_store d n else match d_maxvol d n with Fin m => ~ m == d_minvol d n | _ => True end) ->
  (gvirtual d n v <-> lvirtual d n v).
Proof.
  intros HD H. unfold gvirtual, lvirtual, virtual_bounds. destruct (d_active d n) eqn:EA; cbn [negb].
  - rewrite <- (settled_storage d n v HD H). unfold gstore, storage_bounds.
    destruct (d_maxvol d n) as [|m|]; try reflexivity. destruct (qeqb m (d_minvol d n)); reflexivity.
  - destruct (d_maxvol d n) as [|m|]; cbn [ok3 bounds_ok]; try tauto.
    destruct (qeqbP m (d_minvol d n)) as [E|E]; [contradiction|]. cbn. tauto.
Qed.

(** ** Amounts of the routes and of the demands *)
Definition extend (triv : bool) (S : sys) (x : nat -> Q) (c : nat) : Q :=
  let rs := routes triv S in
  if Nat.ltb c (length rs) then x c else rsum rs x (into (nth (c - length rs) (demands S) 0%nat)).

Lemma extend_route triv S x k : (k < length (routes triv S))%nat -> extend triv S x k = x k.
Proof. intros H. unfold extend. destruct (Nat.ltb_spec k (length (routes triv S))); [reflexivity|lia]. Qed.

Lemma rsum_agree rs x z f : (forall k, (k < length rs)%nat -> x k == z k) -> rsum rs x f == rsum rs z f.
Proof.
  intros H. unfold rsum. apply qsum_map_ext. intros [k r] Hk. cbn [fst snd].
  rewrite (H k) by (eapply enumerate_fst; eauto). reflexivity.
Qed.
Lemma lval_agree N coef x z : (forall k, (k < N)%nat -> x k == z k) -> (forall e, In e coef -> (fst e < N)%nat) -> lval x coef == lval z coef.
Proof. intros H HC. unfold lval. apply qsum_map_ext. intros e He. rewrite (H (fst e)) by auto. reflexivity. Qed.

Lemma cols_lt rs p k : In k (cols rs p) -> (k < length rs)%nat.
Proof.
  unfold cols. intros H. apply in_map_iff in H as [[k' r] [<- H]]. apply filter_In in H as [H _]. cbn. eapply enumerate_fst; eauto.
Qed.
Lemma vcoef_lt S rs v e : In e (vcoef S rs v) -> (fst e < length rs)%nat.
Proof.
  unfold vcoef. intros H. apply in_flat_map in H as [[k r] [H1 H2]]. cbn [fst snd] in H2.
  destruct (virtual_entry S v r); [|contradiction]. destruct H2 as [<-|[]]. cbn. eapply enumerate_fst; eauto.
Qed.
Lemma fcoef_lt rs m0 nf e : In e (fcoef rs m0 nf) -> (fst e < length rs)%nat.
Proof.
  unfold fcoef. rewrite in_app_iff, !in_map_iff. intros [[k [<- H]]|[k [<- H]]]; cbn; eapply cols_lt; eauto.
Qed.
Lemma xcoef_lt S rs cross o e : In e (xcoef S rs cross o) -> (fst e < length rs)%nat.
Proof.
  unfold xcoef. intros H. apply in_map_iff in H as [cv [<- H]]. cbn. unfold cross_cols in H.
  apply in_flat_map in H as [r [_ H]]. destruct r as [|a [|b [|? ?]]]; try contradiction.
  destruct (Nat.eqb a o); [|contradiction]. apply in_map_iff in H as [k [<- H]]. cbn. eapply cols_lt; eauto.
Qed.
Lemma dict_set_In m k v e : In e (dict_set m k v) -> fst e = k \/ In e m.
Proof.
  unfold dict_set. intros [<-|H]; [now left|]. right. now apply filter_In in H.
Qed.
Lemma agg_matrix_lt S rs a e : In e (agg_matrix S rs a) -> (fst e < length rs)%nat.
Proof.
  unfold agg_matrix. assert (forall e, In e (@nil (nat * Q)) -> (fst e < length rs)%nat) as H0 by (intros ? []).
  revert e. generalize dependent (@nil (nat * Q)). generalize (combine (s_members S a) (weights_of S a)).
  intros l. induction l as [|nw l IH]; intros m Hm e; cbn [fold_left]; [apply Hm|].
  apply IH. clear IH e.
  assert (forall cs m, (forall c, In c cs -> (fst c < length rs)%nat) -> (forall e, In e m -> (fst e < length rs)%nat) ->
    forall e, In e (fold_left (fun m c => if memb (fst nw) (snd c) then dict_set m (fst c) (snd nw) else m) cs m) -> (fst e < length rs)%nat) as G.
  { clear. induction cs as [|c cs IH]; intros m Hc Hm e; cbn [fold_left]; [apply Hm|].
    apply IH; [intros; apply Hc; now right|]. intros e' He'. destruct (memb (fst nw) (snd c)); [|now apply Hm].
    apply dict_set_In in He' as [->|He']; [apply Hc; now left|now apply Hm]. }
  apply G; [|exact Hm]. intros [k r] Hk. eapply enumerate_fst; eauto.
Qed.

Lemma asks_agree triv S fs (fb sb vb ab : nat -> Q -> Prop) x z :
  (forall k, (k < length (routes triv S))%nat -> x k == z k) ->
  (forall n v w, v == w -> fb n v -> fb n w) -> (forall n v w, v == w -> sb n v -> sb n w) ->
  (forall n v w, v == w -> vb n v -> vb n w) -> (forall n v w, v == w -> ab n v -> ab n w) ->
  asks triv S fs fb sb vb ab x -> asks triv S fs fb sb vb ab z.
Proof.
  intros H Pf Ps Pv Pa A. constructor.
  - intros k Hk. rewrite <- (H k Hk). now apply (as_nonneg _ _ _ _ _ _ _ _ A).
  - intros n Hn Hk. eapply Pf; [apply rsum_agree; exact H|]. now apply (as_flow _ _ _ _ _ _ _ _ A).
  - intros o Ho Hk Hx. rewrite <- (rsum_agree _ x z _ H).
    rewrite <- (lval_agree (length (routes triv S)) _ x z H) by apply xcoef_lt. now apply (as_cross _ _ _ _ _ _ _ _ A).
  - intros n Hn Hk. eapply Ps; [apply rsum_agree; exact H|]. now apply (as_storage _ _ _ _ _ _ _ _ A).
  - intros n Hn Hk. eapply Pv; [apply (lval_agree _ _ x z H); apply vcoef_lt|]. now apply (as_virtual _ _ _ _ _ _ _ _ A).
  - intros a m0 ms nf Hn Hk Hh E Hi. rewrite <- (lval_agree (length (routes triv S)) _ x z H) by apply fcoef_lt.
    now apply (as_factor _ _ _ _ _ _ _ _ A a m0 ms nf).
  - intros n Hn Hk. eapply Pa; [apply (lval_agree _ _ x z H); apply agg_matrix_lt|]. now apply (as_agg _ _ _ _ _ _ _ _ A).
Qed.

Lemma extend_closed triv S x : closed triv S (extend triv S x).
Proof.
  intros j o Hjo. rewrite (rsum_agree (routes triv S) (extend triv S x) x).
  2:{ intros k Hk. now rewrite extend_route. }
  unfold extend, demand_col. destruct (Nat.ltb_spec (length (routes triv S) + j) (length (routes triv S))); [lia|].
  replace (length (routes triv S) + j - length (routes triv S))%nat with j by lia.
  now rewrite <- (enumerate_nth (demands S) 0%nat j o Hjo).
Qed.

Section Same.
  Context (triv : bool) (S : sys) (c : setup_data) (d : data) (P L : lp) (W : wf_sys S)
    (HP : posed triv S d = Ok P) (HL : lposed triv S c d = Ok L) (HU : unchanged S c d) (HS : settled_data S d).

  Lemma glpk_exact x : feasible P x <-> asks triv S (q_factors c) (lflow d) (lstore d) (lvirtual d) (lagg c) x.
  Proof.
    rewrite (glpk_asks triv S d P x W HP).
    assert (forall n, In n (s_nodes S) -> s_kind S n = KAggregated -> forall v, gflow d n v <-> lagg c n v) as HA.
    { intros n Hn Hk v. destruct (HU n Hn Hk) as [U1 [U2 _]]. unfold gflow, lagg.
      rewrite (settled_flow _ _ v (sd_flow _ _ HS n Hn ltac:(rewrite Hk; reflexivity))). split.
      - intros H. exists (d_min d n), (d_max d n). auto.
      - intros [mn [mx [E1 [E2 H]]]]. congruence. }
    split; intros A; (eapply asks_change; [exact A| | | | |]).
    - intros a Hn Hk Hh. destruct (HU a Hn Hk) as [_ [_ U]]. now destruct (U Hh) as [_ [-> _]].
    - intros n v Hn Hk. apply settled_flow, (sd_flow _ _ HS n Hn). now rewrite Hk.
    - intros n v Hn Hk. apply settled_storage; [apply (sd_days _ _ HS)|now apply (sd_store _ _ HS)].
    - intros n v Hn Hk. apply settled_virtual; [apply (sd_days _ _ HS)|now apply (sd_virtual _ _ HS)].
    - intros n v Hn Hk. now apply HA.
    - intros a Hn Hk Hh. destruct (HU a Hn Hk) as [_ [_ U]]. now destruct (U Hh) as [_ [-> _]].
    - intros n v Hn Hk. apply settled_flow, (sd_flow _ _ HS n Hn). now rewrite Hk.
    - intros n v Hn Hk. apply settled_storage; [apply (sd_days _ _ HS)|now apply (sd_store _ _ HS)].
    - intros n v Hn Hk. apply settled_virtual; [apply (sd_days _ _ HS)|now apply (sd_virtual _ _ HS)].
    - intros n v Hn Hk. now apply HA.
  Qed.

  Lemma lps_to_glpk z : feasible L z -> feasible P z.
  Proof. intros H. apply glpk_exact. now apply (lps_asks triv S c d L z W HL) in H. Qed.

  Lemma glpk_to_lps x : feasible P x -> feasible L (extend triv S x).
  Proof.
    intros H. apply (lps_asks triv S c d L _ W HL). apply glpk_exact in H. split; [|split; [apply extend_closed|]].
    - intros j Hj. unfold extend, demand_col. destruct (Nat.ltb_spec (length (routes triv S) + j) (length (routes triv S))); [lia|].
      apply rsum_nonneg; [apply (as_nonneg _ _ _ _ _ _ _ _ H)|]. intros r _. unfold into. destruct (Nat.eqb _ _); unfold bq; lra.
    - eapply asks_agree; [| | | | |exact H].
      + intros k Hk. now rewrite extend_route.
      + intros n v w E. unfold lflow. now apply within_ext.
      + intros n v w E. unfold lstore. now apply within_ext.
      + intros n v w E. unfold lvirtual. destruct (d_active d n); [|tauto]. unfold lstore. now apply within_ext.
      + intros n v w E [mn [mx [E1 [E2 H']]]]. exists mn, mx. split; [exact E1|]. split; [exact E2|]. revert H'. now apply within_ext.
  Qed.
End Same.

(** ** The flows reported *)
Lemma marked_sum S (f : nat -> Q) r : route_facts S r -> wf_sys S ->
  qsum (map f (route_cost_nodes S r)) == qsum (map (fun n => f n * bq (carries S n r)) (s_nodes S)).
Proof.
  intros F W. rewrite route_cost_nodes_carries by exact F.
  rewrite (qsum_map_ext (fun n => f n * bq (carries S n r)) (fun n => bq (carries S n r) * f n)) by (intros; ring).
  rewrite <- qsum_filter. apply qsum_Permutation, Permutation_map, NoDup_Permutation.
  - apply NoDup_filter, (rf_nodup _ _ F).
  - apply NoDup_filter, (wf_nodes _ W).
  - intros n. rewrite !filter_In. split; intros [H1 H2]; (split; [|exact H2]).
    + now apply (rf_nodes _ _ F).
    + now apply (carries_in S).
Qed.

(** What one unit committed to [n] adds to the flow reported by [k]. *)
Definition share (S : sys) (k n : nat) : Q := contrib S (fun _ => 1) k n.
Lemma contrib_share S nf k n : contrib S nf k n == share S k n * nf n.
Proof. unfold share, contrib. destruct (s_slot S n); ring. Qed.
Lemma commit_share S fl n v k : commit S fl n v k == fl k + share S k n * v.
Proof.
  unfold commit, share, contrib, add, bq. destruct (s_slot S n) as [|st|st].
  - destruct (Nat.eqb k n); ring.
  - destruct (Nat.eqb k st), (Nat.eqb k n); ring.
  - destruct (Nat.eqb k st), (Nat.eqb k n); ring.
Qed.
Lemma commits_share S v k l : forall fl, fold_left (fun fl n => commit S fl n v) l fl k == fl k + qsum (map (share S k) l) * v.
Proof.
  induction l as [|n l IH]; intros fl; cbn [fold_left map qsum]; [ring|]. rewrite IH, commit_share. ring.
Qed.
Lemma lcommit_route_share S fl r v k :
  lcommit_route S fl r v k == fl k + qsum (map (share S k) (route_cost_nodes S r)) * v.
Proof.
  unfold lcommit_route, route_cost_nodes. rewrite commits_share, !commit_share. cbn [app map qsum].
  rewrite map_app, qsum_app. cbn [map qsum]. ring.
Qed.
Lemma lcommitted_sum triv S z k :
  lcommitted triv S z k == rsum (routes triv S) z (fun r => qsum (map (share S k) (route_cost_nodes S r))).
Proof.
  unfold lcommitted, rsum. generalize (enumerate (routes triv S)). intros l.
  assert (forall fl, fold_left (fun fl c => lcommit_route S fl (snd c) (z (fst c))) l fl k ==
    fl k + qsum (map (fun c => qsum (map (share S k) (route_cost_nodes S (snd c))) * z (fst c)) l)) as G.
  { induction l as [|c l IH]; intros fl; cbn [fold_left map qsum]; [ring|]. rewrite IH, lcommit_route_share. ring. }
  rewrite G. ring.
Qed.

Lemma lcommitted_committed triv S z k : wf_sys S -> lcommitted triv S z k == committed triv S z k.
Proof.
  intros W. rewrite lcommitted_sum. unfold committed, commit_all_nodes. rewrite commit_fold.
  rewrite (qsum_map_ext (contrib S (node_flows triv S z) k)
    (fun n => rsum (routes triv S) z (fun r => share S k n * bq (carries S n r)))).
  2:{ intros n _. rewrite contrib_share, node_flows_carries by exact W. now rewrite rsum_scale. }
  rewrite <- (rsum_sum (routes triv S) z (fun n r => share S k n * bq (carries S n r))).
  setoid_replace (0 + rsum (routes triv S) z (fun r => qsum (map (fun n => share S k n * bq (carries S n r)) (all_nodes S)))) with
    (rsum (routes triv S) z (fun r => qsum (map (fun n => share S k n * bq (carries S n r)) (all_nodes S)))) by ring.
  apply rsum_ext. intros r Hr. rewrite (marked_sum S (share S k) r (routes_facts _ _ _ W Hr) W).
  apply (qsum_nodes_all S (fun n => share S k n * bq (carries S n r))).
Qed.

(** ** Costs *)
Lemma route_lcost_sum S d r : route_facts S r -> route_lcost S d r == path_cost S d r - get_cost S d (rlast r).
Proof.
  intros F. rewrite path_cost_nodes by exact F. unfold route_lcost, route_cost_nodes. rewrite fold_cost.
  cbn [app map qsum]. rewrite map_app, qsum_app. cbn [map qsum]. ring.
Qed.

Lemma lobjective triv S c d L z : wf_sys S -> lposed triv S c d = Ok L -> closed triv S z ->
  objective L z == rsum (routes triv S) z (path_cost S d).
Proof.
  intros W HL HC.
  assert (lp_ncols L = (length (routes triv S) + length (demands S))%nat /\ lp_obj L = lobj S d (routes triv S)) as [E1 E2].
  { unfold lposed in HL.
    destruct (match s_nodes S with [] => true | _ => false end); [discriminate|].
    destruct (existsb _ (nodes_of S is_aggregated)); [discriminate|].
    destruct (mapM (limited c) (nodes_of S is_aggregated)) as [lim|]; [|discriminate]. cbn [bindR] in HL.
    destruct (match routes triv S with [] => true | _ => false end); [discriminate|].
    destruct (match supplys S ++ demands S with [] => true | _ => false end); [discriminate|].
    repeat (match type of HL with bindR ?r _ = _ => destruct r; [|discriminate]; cbn [bindR] in HL end).
    injection HL as <-. split; reflexivity. }
  unfold objective. rewrite E1, E2, seq_app, map_app, qsum_app.
  rewrite (qsum_map_ext _ (fun k => (path_cost S d (nth k (routes triv S) []) - get_cost S d (rlast (nth k (routes triv S) []))) * z k)).
  2:{ intros k Hk. apply in_seq in Hk. unfold lobj. destruct (Nat.ltb_spec k (length (routes triv S))); [|lia].
      rewrite route_lcost_sum; [reflexivity|]. eapply routes_facts; [exact W|]. apply nth_In. lia. }
  rewrite <- (rsum_seq (routes triv S) z (fun r => path_cost S d r - get_cost S d (rlast r))). rewrite rsum_minus.
  assert (qsum (map (fun k => lobj S d (routes triv S) k * z k) (seq (0 + length (routes triv S)) (length (demands S)))) ==
    rsum (routes triv S) z (fun r => get_cost S d (rlast r))) as ->; [|ring].
  transitivity (qsum (map (fun jo => get_cost S d (snd jo) * rsum (routes triv S) z (into (snd jo))) (enumerate (demands S)))).
  - rewrite Nat.add_0_l. replace (seq (length (routes triv S)) (length (demands S))) with
      (map (fun jo => demand_col (routes triv S) (fst jo)) (enumerate (demands S))).
    2:{ rewrite <- (map_map fst (fun j => demand_col (routes triv S) j)), enumerate_map_fst. unfold demand_col. clear.
        generalize (length (demands S)) as m. intros m. generalize (length (routes triv S)) as n. intros n.
        replace (seq n m) with (seq (n + 0) m) by (f_equal; lia). generalize 0%nat. induction m as [|m IH]; intros k; [reflexivity|].
        cbn [seq map]. f_equal. rewrite IH. f_equal. lia. }
    rewrite map_map. apply qsum_map_ext. intros [j o] Hjo. cbn [fst snd]. rewrite (HC j o Hjo). unfold lobj, demand_col.
    destruct (Nat.ltb_spec (length (routes triv S) + j) (length (routes triv S))); [lia|].
    replace (length (routes triv S) + j - length (routes triv S))%nat with j by lia.
    rewrite <- (enumerate_nth (demands S) 0%nat j o Hjo). reflexivity.
  - rewrite (qsum_enumerate (demands S) (fun o => get_cost S d o * rsum (routes triv S) z (into o))).
    rewrite (qsum_map_ext _ (fun o => rsum (routes triv S) z (fun r => get_cost S d o * into o r))).
    2:{ intros o _. now rewrite rsum_scale. }
    rewrite <- (rsum_sum (routes triv S) z (fun o r => get_cost S d o * into o r)).
    apply rsum_ext. intros r Hr. pose proof (routes_facts _ _ _ W Hr) as F.
    rewrite (qsum_map_ext _ (fun o => bq (Nat.eqb (rlast r) o) * get_cost S d o)) by (intros o _; unfold into; ring).
    apply (qsum_indicator (fun o => get_cost S d o)); [now apply demands_NoDup|].
    apply demands_In. split; [apply (rf_nodes _ _ F), last_in, (rf_ne _ _ F)|apply (rf_last _ _ F)].
Qed.

(** ** When it can be posed *)
Lemma set_lrow_total coef lb ub : NoDup (map fst coef) -> exists r, set_lrow coef lb ub = Ok r.
Proof. intros H. unfold set_lrow. rewrite (proj2 (nodupb_NoDup _) H). eauto. Qed.

Lemma NoDup_app_r {A} (l m : list A) : NoDup (l ++ m) -> NoDup m.
Proof. induction l as [|a l IH]; [auto|]. intros H. inversion H; auto. Qed.

Lemma NoDup_app_intro {A} (l m : list A) : NoDup l -> NoDup m -> (forall k, In k l -> In k m -> False) -> NoDup (l ++ m).
Proof.
  induction l as [|a l IH]; intros H1 H2 H3; [exact H2|]. inversion H1; subst. cbn. constructor.
  - rewrite in_app_iff. intros [H|H]; [contradiction|]. apply (H3 a); [now left|exact H].
  - apply IH; auto. intros k K1 K2. apply (H3 k); [now right|exact K2].
Qed.
Lemma NoDup_snoc {A} (l : list A) a : NoDup l -> ~ In a l -> NoDup (l ++ [a]).
Proof.
  intros H N. apply (Permutation_NoDup (l := a :: l)); [apply Permutation_cons_append|]. now constructor.
Qed.
Lemma map_fst_const {A} (l : list A) (v : Q) : map fst (map (fun c => (c, v)) l) = l.
Proof. rewrite map_map. cbn. apply map_id. Qed.

Lemma lposed_total triv S c d P : wf_sys S -> posed triv S d = Ok P -> unchanged S c d -> exists L, lposed triv S c d = Ok L.
Proof.
  intros W HP HU. pose proof HP as HP0. apply posed_inv in HP.
  assert (forall n (p : kind -> bool), In n (nodes_of S p) <-> In n (s_nodes S) /\ p (s_kind S n) = true) as NO
    by (intros; unfold nodes_of; apply filter_In).
  assert (forall n, In n (nodes_of S is_aggregated) <-> In n (s_nodes S) /\ s_kind S n = KAggregated) as NA
    by (intros n; rewrite NO; destruct (s_kind S n); cbn; intuition discriminate).
  unfold posed in HP0.
  destruct (match all_nodes S with [] => true | _ => false end) eqn:X1; [discriminate|].
  destruct (match routes triv S with [] => true | _ => false end) eqn:X2; [discriminate|].
  destruct (match of_kind S is_flow_node with [] => true | _ => false end) eqn:X3; [discriminate|]. clear HP0.
  assert (exists n, In n (s_nodes S) /\ is_flow_node (s_kind S n) = true) as [n0 [N0 K0]].
  { destruct (of_kind S is_flow_node) as [|n l] eqn:E; [discriminate|]. exists n. apply of_kind_In. rewrite E. now left. }
  unfold lposed.
  assert ((match s_nodes S with [] => true | _ => false end) = false) as -> by (destruct (s_nodes S); [contradiction|reflexivity]).
  assert (existsb (fun a => s_has_factors S a && negb (q_fixed c a)) (nodes_of S is_aggregated) = false) as ->.
  { destruct (existsb _ _) eqn:E; [|reflexivity]. apply existsb_exists in E as [a [Ha E]]. apply NA in Ha as [Ha Ka].
    apply andb_true_iff in E as [E1 E2]. destruct (HU a Ha Ka) as [_ [_ U]]. destruct (U E1) as [U1 _]. rewrite U1 in E2. discriminate. }
  destruct (mapM_total (limited c) (nodes_of S is_aggregated)) as [lim ->].
  { intros a Ha. apply NA in Ha as [Ha Ka]. destruct (HU a Ha Ka) as [U1 [U2 _]]. unfold limited. rewrite U1, U2.
    destruct (d_min d a), (d_max d a); eauto. }
  cbn [bindR]. rewrite X2.
  assert ((match supplys S ++ demands S with [] => true | _ => false end) = false) as ->.
  { assert (In n0 (supplys S ++ demands S)) as H.
    { apply in_app_iff. unfold supplys, demands. rewrite !filter_In. destruct (s_kind S n0); try discriminate; cbn; tauto. }
    destruct (supplys S ++ demands S); [contradiction|reflexivity]. }
  assert (forall n, In n (s_nodes S) -> is_flow_node (s_kind S n) = true -> node_cols S (routes triv S) n <> []) as NC.
  { intros n Hn Hk. destruct (pf_flow _ _ _ _ HP n Hn Hk) as [l [Hl _]]. unfold non_storage_rows in Hl.
    intros E. rewrite E in Hl. discriminate. }
  destruct (mapM_total (supply_row S d (routes triv S)) (supplys S)) as [r1 ->].
  { intros n Hn. apply filter_In in Hn as [Hn Hk]. specialize (NC n Hn ltac:(destruct (s_kind S n); try discriminate; reflexivity)).
    unfold supply_row. set (cs := if is_input (s_kind S n) then _ else _).
    assert (cs = node_cols S (routes triv S) n) as E by (subst cs; unfold node_cols; destruct (s_kind S n); try discriminate; reflexivity).
    assert (NoDup cs) as ND by (subst cs; destruct (is_input (s_kind S n)); apply cols_NoDup).
    rewrite <- E in NC. destruct cs as [|c0 cs']; [contradiction|]. apply set_lrow_total. now rewrite map_fst_const. }
  cbn [bindR].
  destruct (mapM_total (demand_row (routes triv S)) (enumerate (demands S))) as [r2 ->].
  { intros [j o] Hjo. pose proof (enumerate_snd _ _ _ Hjo) as Ho. apply demands_In in Ho as [Ho Ko].
    specialize (NC o Ho ltac:(now rewrite Ko)). unfold node_cols in NC. rewrite Ko in NC. unfold demand_row. cbn [fst snd].
    destruct (cols (routes triv S) (fun r => Nat.eqb (rlast r) o)) as [|c0 cs] eqn:E; [contradiction|]. rewrite <- E.
    apply set_lrow_total. rewrite map_app, map_fst_const. cbn [map fst]. apply NoDup_snoc; [apply cols_NoDup|].
    intros H. apply cols_lt in H. unfold demand_col in H. lia. }
  cbn [bindR].
  destruct (mapM_total (demand_bounds d (routes triv S)) (enumerate (demands S))) as [r3 ->].
  { intros [j o] _. apply set_lrow_total. cbn. repeat constructor. tauto. }
  cbn [bindR].
  assert (exists r4, concatR (mapM (cross_row S (routes triv S) (cross_domain_routes triv S)) (enumerate (demands S))) = Ok r4) as [r4 ->].
  { destruct (mapM_total (cross_row S (routes triv S) (cross_domain_routes triv S)) (enumerate (demands S))) as [l ->]; [|cbn; eauto].
    intros [j o] Hjo. pose proof (enumerate_snd _ _ _ Hjo) as Ho. apply demands_In in Ho as [Ho Ko].
    unfold cross_row. cbn [fst snd]. destruct (in_cross (cross_domain_routes triv S) o) eqn:Ex; [|eauto].
    destruct (pf_flow _ _ _ _ HP o Ho ltac:(now rewrite Ko)) as [l [Hl _]]. unfold non_storage_rows in Hl.
    destruct (node_cols S (routes triv S) o); [discriminate|]. destruct (flow_bounds _ _) as [[t lb] ub].
    destruct (set_row _ t lb ub); [|discriminate]. rewrite Ex in Hl.
    destruct (set_row (_ ++ _) FX (Fin 0) (Fin 0)) as [r|] eqn:ER; [|discriminate].
    apply set_row_inv in ER as [_ ND]. rewrite map_app in ND. apply NoDup_app_r in ND.
    fold (xcoef S (routes triv S) (cross_domain_routes triv S) o) in *.
    destruct (set_lrow_total (xcoef S (routes triv S) (cross_domain_routes triv S) o ++ [(demand_col (routes triv S) j, - (1))]) (Fin 0) (Fin 0)) as [r' ->]; [|eauto].
    rewrite map_app. cbn [map fst]. apply NoDup_snoc; [exact ND|].
    intros H. apply in_map_iff in H as [e [E He]]. apply xcoef_lt in He. rewrite E in He. unfold demand_col in He. lia. }
  cbn [bindR].
  destruct (mapM_total (storage_lrow S d (routes triv S)) (nodes_of S is_storage)) as [r5 ->].
  { intros st _. unfold storage_lrow. apply set_lrow_total. rewrite map_app, map_fst_const, !map_map. cbn [fst].
    apply NoDup_app_intro.
    - rewrite <- (map_map fst (fun j => demand_col (routes triv S) j)). apply FinFun.Injective_map_NoDup.
      + intros a b H. unfold demand_col in H. lia.
      + apply NoDup_map_filter. rewrite enumerate_map_fst. apply seq_NoDup.
    - apply cols_NoDup.
    - intros k H1 H2. apply cols_lt in H2. apply in_map_iff in H1 as [e [<- _]]. unfold demand_col in H2. lia. }
  cbn [bindR].
  destruct (mapM_total (virtual_lrow S d (routes triv S)) (nodes_of S is_virtual)) as [r6 ->].
  { intros v Hv. apply NO in Hv as [Hv Kv]. assert (s_kind S v = KVirtual) as Kv' by (destruct (s_kind S v); try discriminate; reflexivity).
    destruct (pf_virtual _ _ _ _ HP v Hv Kv') as [r [Hr _]]. unfold virtual_row in Hr.
    destruct (virtual_bounds _ _ _ _ _) as [[t lb] ub]. apply set_row_inv in Hr as [_ ND].
    unfold virtual_lrow. destruct (d_active d v); now apply set_lrow_total. }
  cbn [bindR].
  assert (exists r7, concatR (mapM (factor_lrows S c (routes triv S)) (filter (s_has_factors S) (nodes_of S is_aggregated))) = Ok r7) as [r7 ->].
  { destruct (mapM_total (factor_lrows S c (routes triv S)) (filter (s_has_factors S) (nodes_of S is_aggregated))) as [l ->]; [|cbn; eauto].
    intros a Ha. apply filter_In in Ha as [Ha Hh]. apply NA in Ha as [Ha Ka].
    destruct (HU a Ha Ka) as [_ [_ U]]. destruct (U Hh) as [_ [U2 U3]].
    destruct (pf_factor _ _ _ _ HP a Ha Ka Hh) as [l [Hl _]]. unfold factor_rows in Hl. unfold factor_lrows. rewrite U2.
    destruct (s_members S a) as [|m0 ms]; [discriminate|].
    destruct (factors_usable (m0 :: ms) (d_factors d a)) eqn:EU; [|discriminate].
    rewrite (proj2 (Nat.eqb_eq _ _)) by now rewrite U3.
    unfold factors_usable in EU. apply andb_true_iff in EU as [_ EU]. rewrite EU. cbn [andb].
    apply mapM_total. intros nf Hnf. destruct (mapM_In _ _ _ Hl nf Hnf) as [r [Hr _]]. apply set_row_inv in Hr as [_ ND].
    now apply set_lrow_total. }
  cbn [bindR].
  assert (exists r8, concatR (mapM (agg_lrows S c (routes triv S)) (nodes_of S is_aggregated)) = Ok r8) as [r8 ->].
  { destruct (mapM_total (agg_lrows S c (routes triv S)) (nodes_of S is_aggregated)) as [l ->]; [|cbn; eauto].
    intros a Ha. apply NA in Ha as [Ha Ka]. destruct (HU a Ha Ka) as [U1 [U2 _]].
    destruct (pf_agg _ _ _ _ HP a Ha Ka) as [r [Hr _]]. unfold agg_row in Hr.
    destruct (flow_bounds (d_min d a) (d_max d a)) as [[t lb] ub]. apply set_row_inv in Hr as [_ ND].
    assert (NoDup (map fst (rev (agg_matrix S (routes triv S) a)))) as ND'.
    { eapply Permutation_NoDup; [|exact ND]. apply Permutation_map. etransitivity; [symmetry; apply isort_perm|apply Permutation_rev]. }
    unfold agg_lrows, limited. rewrite U1, U2.
    assert (exists b : bool, match d_min d a, d_max d a with NInf, PInf => Ok false | _, _ => Ok true end = @Ok bool b) as _ by (destruct (d_min d a), (d_max d a); eauto).
    destruct (set_lrow_total (rev (agg_matrix S (routes triv S) a)) (d_min d a) (d_max d a) ND') as [r' Hr'].
    rewrite Hr'. destruct (d_min d a), (d_max d a); eauto. }
  cbn [bindR]. eauto.
Qed.
