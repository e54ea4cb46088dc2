(** What holds of every answer of the edge solver, and the comparison of the optima. *)
From Verif Require Import Base Paths Sorting Routes_model Routes_spec Routes_proofs LP_model Sys_model
  RouteLP_model RouteLP_spec RouteLP_proofs RouteLP_flow EdgeLP_model EdgeLP_spec EdgeLP_meets EdgeLP_proofs EdgeLP_decomp EdgeLP_posed.
Open Scope Q_scope.

Lemma edge_amount_esum S y a b : edge_amount S y a b == esum S y (fun e => bq (Nat.eqb (fst e) a && Nat.eqb (snd e) b)).
Proof.
  unfold edge_amount, esum. rewrite <- enumerate_map_fst, map_map. apply qsum_map_ext. intros [k e] Hk. cbn [fst snd].
  apply enumerate_In in Hk. rewrite (nth_error_nth _ _ _ Hk). cbv zeta.
  destruct (Nat.eqb (fst e) a && Nat.eqb (snd e) b); unfold bq; ring.
Qed.

Section Limits.
  Variables (triv : bool) (S : sys) (d : data) (y : nat -> Q).
  Hypothesis R : regular S.
  Hypothesis I : inner_only S y.
  Let W := reg_wf _ R.

  Lemma amounts_in n : qsum (map (fun a => edge_amount S y a n) (s_nodes S)) == inflow S y n.
  Proof.
    rewrite (qsum_map_ext _ (fun a => esum S y (fun e => bq (Nat.eqb (fst e) a && Nat.eqb (snd e) n)))) by (intros; apply edge_amount_esum).
    rewrite <- esum_sum. unfold inflow. rewrite <- (inner_esum S y (fun e => Nat.eqb (snd e) n) I). apply esum_ext.
    intros [a b] He. cbn [fst snd]. destruct (wf_ends _ W a b He) as [Ha _].
    rewrite (qsum_map_ext _ (fun k => bq (Nat.eqb a k) * (fun _ => bq (Nat.eqb b n)) k)).
    2:{ intros k _. destruct (Nat.eqb a k), (Nat.eqb b n); unfold bq; reflexivity. }
    rewrite qsum_indicator by (auto; apply W). reflexivity.
  Qed.
  Lemma amounts_out n : qsum (map (fun b => edge_amount S y n b) (s_nodes S)) == outflow S y n.
  Proof.
    rewrite (qsum_map_ext _ (fun b => esum S y (fun e => bq (Nat.eqb (fst e) n && Nat.eqb (snd e) b)))) by (intros; apply edge_amount_esum).
    rewrite <- esum_sum. unfold outflow. rewrite <- (inner_esum S y (fun e => Nat.eqb (fst e) n) I). apply esum_ext.
    intros [a b] He. cbn [fst snd]. destruct (wf_ends _ W a b He) as [_ Hb].
    rewrite (qsum_map_ext _ (fun k => bq (Nat.eqb b k) * (fun _ => bq (Nat.eqb a n)) k)).
    2:{ intros k _. destruct (Nat.eqb b k), (Nat.eqb a n); unfold bq; reflexivity. }
    rewrite qsum_indicator by (auto; apply W). reflexivity.
  Qed.

  (** In every domain what leaves nodes is what enters nodes. *)
  Lemma domain_edges D :
    qsum (map (fun n => bq (Nat.eqb (s_domain S n) D) * outflow S y n) (s_nodes S)) ==
    qsum (map (fun n => bq (Nat.eqb (s_domain S n) D) * inflow S y n) (s_nodes S)).
  Proof.
    unfold outflow, inflow.
    rewrite (qsum_map_ext _ (fun n => esum S y (fun e => bq (Nat.eqb (s_domain S n) D) * bq (same_domain S e && Nat.eqb (fst e) n))))
      by (intros; now rewrite esum_scale).
    rewrite (qsum_map_ext (fun n => bq (Nat.eqb (s_domain S n) D) * esum S y (fun e => bq (same_domain S e && Nat.eqb (snd e) n)))
      (fun n => esum S y (fun e => bq (Nat.eqb (s_domain S n) D) * bq (same_domain S e && Nat.eqb (snd e) n))))
      by (intros; now rewrite esum_scale).
    rewrite <- !esum_sum. apply esum_ext. intros [a b] He. cbn [fst snd]. destruct (wf_ends _ W a b He) as [Ha Hb].
    unfold same_domain. cbn [fst snd]. destruct (Nat.eqb_spec (s_domain S a) (s_domain S b)) as [E|N]; cbn [andb].
    - rewrite (qsum_map_ext (fun n => bq (Nat.eqb (s_domain S n) D) * bq (Nat.eqb a n))
        (fun n => bq (Nat.eqb a n) * (fun n => bq (Nat.eqb (s_domain S n) D)) n)) by (intros; ring).
      rewrite (qsum_map_ext (fun n => bq (Nat.eqb (s_domain S n) D) * bq (Nat.eqb b n))
        (fun n => bq (Nat.eqb b n) * (fun n => bq (Nat.eqb (s_domain S n) D)) n)) by (intros; ring).
      rewrite !qsum_indicator by (auto; apply W). now rewrite E.
    - rewrite !qsum_map_zero; [reflexivity|..]; intros; unfold bq; ring.
  Qed.

  Hypothesis H : edge_solved triv S d y.

  Lemma edge_bal : balanced S y.
  Proof. destruct H as [E [HE HF]]. eapply edge_balanced; eauto. Qed.

  Lemma edge_link_balance n : In n (s_nodes S) -> s_kind S n = KLink ->
    qsum (map (fun a => edge_amount S y a n) (s_nodes S)) == ecommitted S y n /\
    qsum (map (fun b => edge_amount S y n b) (s_nodes S)) == ecommitted S y n.
  Proof.
    intros Hn Hk. rewrite amounts_in, amounts_out.
    rewrite (ecommitted_flow S y R I edge_bal n Hn) by now rewrite Hk. unfold through. rewrite Hk.
    split; [now apply edge_bal|reflexivity].
  Qed.

  Lemma edge_domain_balance D :
    qsum (map (fun n => bq (is_input (s_kind S n) && Nat.eqb (s_domain S n) D) * ecommitted S y n) (s_nodes S)) ==
    qsum (map (fun n => bq (is_output (s_kind S n) && Nat.eqb (s_domain S n) D) * ecommitted S y n) (s_nodes S)).
  Proof.
    pose proof (domain_edges D) as K.
    rewrite (qsum_map_ext (fun n => bq (is_input (s_kind S n) && Nat.eqb (s_domain S n) D) * ecommitted S y n)
      (fun n => bq (Nat.eqb (s_domain S n) D) * outflow S y n - bq (is_link (s_kind S n) && Nat.eqb (s_domain S n) D) * outflow S y n)).
    - rewrite (qsum_map_ext (fun n => bq (is_output (s_kind S n) && Nat.eqb (s_domain S n) D) * ecommitted S y n)
        (fun n => bq (Nat.eqb (s_domain S n) D) * inflow S y n - bq (is_link (s_kind S n) && Nat.eqb (s_domain S n) D) * outflow S y n)).
      + rewrite !qsum_map_minus. lra.
      + intros n Hn. destruct (s_kind S n) eqn:E; cbn [is_output is_link andb].
        * rewrite (input_inflow S y R n E). unfold bq. ring.
        * rewrite (ecommitted_flow S y R I edge_bal n Hn) by now rewrite E. unfold through. rewrite E. unfold bq. destruct (Nat.eqb (s_domain S n) D); ring.
        * rewrite (edge_bal n Hn E). unfold bq. destruct (Nat.eqb (s_domain S n) D); ring.
        * destruct (no_flow S y R n) as [E1 E2]; [now rewrite E|]. unfold bq. destruct (Nat.eqb (s_domain S n) D); rewrite ?E1, ?E2; ring.
        * destruct (no_flow S y R n) as [E1 E2]; [now rewrite E|]. unfold bq. destruct (Nat.eqb (s_domain S n) D); rewrite ?E1, ?E2; ring.
        * destruct (no_flow S y R n) as [E1 E2]; [now rewrite E|]. unfold bq. destruct (Nat.eqb (s_domain S n) D); rewrite ?E1, ?E2; ring.
        * destruct (no_flow S y R n) as [E1 E2]; [now rewrite E|]. unfold bq. destruct (Nat.eqb (s_domain S n) D); rewrite ?E1, ?E2; ring.
    - intros n Hn. destruct (s_kind S n) eqn:E; cbn [is_input is_link andb].
      * rewrite (ecommitted_flow S y R I edge_bal n Hn) by now rewrite E. unfold through. rewrite E. unfold bq. destruct (Nat.eqb (s_domain S n) D); ring.
      * rewrite (output_outflow S y R n E). unfold bq. ring.
      * unfold bq. destruct (Nat.eqb (s_domain S n) D); ring.
      * destruct (no_flow S y R n) as [E1 E2]; [now rewrite E|]. unfold bq. destruct (Nat.eqb (s_domain S n) D); rewrite ?E1, ?E2; ring.
      * destruct (no_flow S y R n) as [E1 E2]; [now rewrite E|]. unfold bq. destruct (Nat.eqb (s_domain S n) D); rewrite ?E1, ?E2; ring.
      * destruct (no_flow S y R n) as [E1 E2]; [now rewrite E|]. unfold bq. destruct (Nat.eqb (s_domain S n) D); rewrite ?E1, ?E2; ring.
      * destruct (no_flow S y R n) as [E1 E2]; [now rewrite E|]. unfold bq. destruct (Nat.eqb (s_domain S n) D); rewrite ?E1, ?E2; ring.
  Qed.

  Lemma edge_flow_in_bounds n : In n (s_nodes S) -> is_flow_node (s_kind S n) = true ->
    0 <= ecommitted S y n /\ at_least (d_min d n) (ecommitted S y n) /\ at_most (ecommitted S y n) (d_max d n).
  Proof.
    intros Hn Hk. split.
    - rewrite (ecommitted_flow S y R I edge_bal n Hn Hk). destruct H as [E [HE [Hy _]]]. apply eposed_inv in HE.
      rewrite (ef_cols _ _ _ _ HE) in Hy.
      assert (forall p, 0 <= esum S y (fun e => bq (p e))) as K.
      { intros p. apply qsum_map_nonneg. intros [k e] Hc. cbn [fst snd]. apply enumerate_In in Hc.
        assert (0 <= y k) by (apply Hy, nth_error_Some; congruence). unfold bq. destruct (p e); lra. }
      unfold through. destruct (s_kind S n); apply K.
    - pose proof edge_bal as B. destruct H as [E [HE [_ HF]]]. apply eposed_inv in HE. destruct (ef_flow _ _ _ _ HE n Hn Hk) as [l [Hl Hin]].
      destruct (proj1 (edge_flow_rows triv S d y R I B n l Hn Hk Hl) (fun r Hr => HF r (Hin r Hr))) as [K _].
      unfold within in K. destruct (flow_bounds (d_min d n) (d_max d n)) as [[t lb] ub] eqn:Eb. eapply flow_bounds_ok; eauto.
  Qed.

  Lemma edge_cross_balance o : In o (s_nodes S) -> s_kind S o = KOutput -> (exists i, feeds S o i = true) ->
    ecommitted S y o == qsum (map (fun i => ecommitted S y i / s_conv S i) (filter (feeds S o) (s_nodes S))).
  Proof.
    intros Hn Ho Hi. pose proof edge_bal as B. assert (is_flow_node (s_kind S o) = true) as Hk by now rewrite Ho.
    destruct H as [E [HE [_ HF]]]. apply eposed_inv in HE. destruct (ef_flow _ _ _ _ HE o Hn Hk) as [l [Hl Hin]].
    apply (proj1 (edge_flow_rows triv S d y R I B o l Hn Hk Hl) (fun r Hr => HF r (Hin r Hr))); assumption.
  Qed.

  Lemma edge_storage_slots st : In st (s_nodes S) -> s_kind S st = KStorage ->
    ecommitted S y st == qsum (map (ecommitted S y) (s_outputs S st)) - qsum (map (ecommitted S y) (s_inputs S st)).
  Proof.
    intros Hn Hk. pose proof edge_bal as B. rewrite (ecommitted_storage S y R I B st Hn Hk).
    rewrite (qsum_map_ext (ecommitted S y) (inflow S y) (s_outputs S st)), (qsum_map_ext (ecommitted S y) (outflow S y) (s_inputs S st)); [reflexivity|..].
    - intros n K. destruct (wf_inputs_nodes _ W n st K) as [H1 [H2 _]]. rewrite ecommitted_flow by (auto; now rewrite H2).
      unfold through. now rewrite H2.
    - intros n K. destruct (wf_outputs_nodes _ W n st K) as [H1 [H2 _]]. rewrite ecommitted_flow by (auto; now rewrite H2).
      unfold through. now rewrite H2.
  Qed.

  Lemma edge_storage_limits st : 0 < d_days d -> In st (s_nodes S) -> s_kind S st = KStorage -> d_maxvol d st <> NInf ->
    - qmax (d_vol d st - d_minvol d st) 0 / d_days d <= ecommitted S y st /\
    match d_maxvol d st with Fin m => ecommitted S y st <= qmax (m - d_vol d st) 0 / d_days d | _ => True end.
  Proof.
    intros Hd Hn Hk Hm. pose proof edge_bal as B. destruct H as [E [HE [_ HF]]]. apply eposed_inv in HE.
    destruct (ef_storage _ _ _ _ HE st Hn Hk) as [r [Hr Hin]].
    pose proof (proj1 (edge_storage_row_ok S d y R I B st r Hn Hk Hr) (HF r Hin)) as K. unfold within in K.
    destruct (storage_bounds _ _ _ _) as [[t lb] ub] eqn:Eb. eapply storage_bounds_sound; eauto.
  Qed.

  Lemma edge_virtual_limits v : 0 < d_days d -> In v (s_nodes S) -> s_kind S v = KVirtual -> d_active d v = true ->
    d_maxvol d v <> NInf ->
    - qmax (d_vol d v - d_minvol d v) 0 / d_days d <= virtual_flow S (ecommitted S y) v /\
    match d_maxvol d v with Fin m => virtual_flow S (ecommitted S y) v <= qmax (m - d_vol d v) 0 / d_days d | _ => True end.
  Proof.
    intros Hd Hn Hk Ha Hm. pose proof edge_bal as B. destruct H as [E [HE [_ HF]]]. apply eposed_inv in HE.
    destruct (ef_virtual _ _ _ _ HE v Hn Hk) as [r [Hr Hin]].
    pose proof (proj1 (edge_virtual_row_ok S d y R I B v r Hn Hk Hr) (HF r Hin)) as K. unfold within in K.
    rewrite Ha in K.
    assert (virtual_bounds true (d_vol d v) (d_minvol d v) (d_maxvol d v) (d_days d) =
            storage_bounds (d_vol d v) (d_minvol d v) (d_maxvol d v) (d_days d)) as Ev.
    { unfold virtual_bounds, storage_bounds. destruct (d_maxvol d v) as [|m|]; try reflexivity. destruct (qeqb m (d_minvol d v)); reflexivity. }
    rewrite Ev in K. destruct (storage_bounds _ _ _ _) as [[t lb] ub] eqn:Eb. eapply storage_bounds_sound; eauto.
  Qed.

  Lemma edge_factor_ratio a m0 ms i mi fi f0 :
    In a (s_nodes S) -> s_kind S a = KAggregated -> s_has_factors S a = true ->
    s_members S a = m0 :: ms -> hd_error (d_factors d a) = Some f0 ->
    nth_error (m0 :: ms) i = Some mi -> nth_error (d_factors d a) i = Some fi ->
    ecommitted S y m0 * fi == ecommitted S y mi * f0.
  Proof.
    intros Ha Hk Hf Hm Hf0 Hi Hfi. destruct i as [|i].
    { cbn in Hi. injection Hi as ->. assert (f0 = fi) as -> by (destruct (d_factors d a); cbn in *; congruence). ring. }
    pose proof edge_bal as B. destruct H as [E [HE [_ HF]]]. apply eposed_inv in HE.
    destruct (ef_factor _ _ _ _ HE a Ha Hk Hf) as [l [Hl Hin]].
    assert (~ fi == 0) as Hnz.
    { unfold edge_factor_rows in Hl. rewrite Hm in Hl. destruct (factors_usable (m0 :: ms) (d_factors d a)) eqn:U; [|discriminate].
      eapply factors_usable_nonzero; [exact U|]. eapply nth_error_In. exact Hfi. }
    pose proof (proj1 (edge_factor_rows_ok S d y R I B a l Ha Hk Hl) (fun r Hr => HF r (Hin r Hr)) m0 ms mi fi Hm) as K.
    destruct (d_factors d a) as [|g fs]; [discriminate|]. cbn in Hf0, Hi, Hfi, K. injection Hf0 as ->.
    rewrite K; [field; exact Hnz|]. clear - Hi Hfi. revert fs i Hi Hfi.
    induction ms as [|m ms IH]; intros [|f fs] [|i] Hi Hfi; cbn in *; try discriminate.
    - injection Hi as ->. injection Hfi as ->. now left.
    - right. eauto.
  Qed.

  Lemma joined_apart a : NoDup (s_members S a) ->
    (forall m m', In m (s_members S a) -> In m' (s_members S a) -> s_kind S m' = KOutput -> ~ In (m, m') (s_edges S)) ->
    edges_apart S a.
  Proof.
    intros Hn Hj i j m m' c Hi Hj' Hc Hc'.
    assert (m = m') as ->; [|apply (proj1 (NoDup_nth_error (s_members S a)) Hn); [apply nth_error_Some; congruence|congruence]].
    pose proof (nth_error_In _ _ Hi) as Im. pose proof (nth_error_In _ _ Hj') as Im'.
    unfold node_ecols in *.
    assert (forall k, {s_kind S k = KOutput} + {s_kind S k <> KOutput}) as Dec by (intros k; destruct (s_kind S k); auto; right; discriminate).
    assert (forall k c, s_kind S k = KOutput -> In c (match s_kind S k with KOutput => in_edges S k | _ => out_edges S k end) ->
       exists u, nth_error (s_edges S) c = Some (u, k)) as Ho.
    { intros k c0 E K. rewrite E in K. apply in_edges_In in K as [u [K _]]. eauto. }
    assert (forall k c, s_kind S k <> KOutput -> In c (match s_kind S k with KOutput => in_edges S k | _ => out_edges S k end) ->
       exists u, nth_error (s_edges S) c = Some (k, u)) as Hp.
    { intros k c0 E K. assert (In c0 (out_edges S k)) as K' by (destruct (s_kind S k); auto; contradiction).
      apply out_edges_In in K' as [u [K' _]]. eauto. }
    destruct (Dec m) as [E|E], (Dec m') as [E'|E'].
    - apply Ho in Hc as [u Hu]; [|exact E]. apply Ho in Hc' as [u' Hu']; [|exact E']. congruence.
    - apply Ho in Hc as [u Hu]; [|exact E]. apply Hp in Hc' as [u' Hu']; [|exact E']. rewrite Hu in Hu'. injection Hu' as -> ->.
      exfalso. eapply (Hj m' u'); eauto. now apply nth_error_In in Hu.
    - apply Hp in Hc as [u Hu]; [|exact E]. apply Ho in Hc' as [u' Hu']; [|exact E']. rewrite Hu in Hu'. injection Hu' as <- <-.
      exfalso. eapply (Hj m u); eauto. now apply nth_error_In in Hu.
    - apply Hp in Hc as [u Hu]; [|exact E]. apply Hp in Hc' as [u' Hu']; [|exact E']. congruence.
  Qed.

  Lemma edge_agg_bounds a : In a (s_nodes S) -> s_kind S a = KAggregated -> NoDup (s_members S a) ->
    (forall m m', In m (s_members S a) -> In m' (s_members S a) -> s_kind S m' = KOutput -> ~ In (m, m') (s_edges S)) ->
    at_least (d_min d a) (aggregated_flow S (ecommitted S y) a) /\ at_most (aggregated_flow S (ecommitted S y) a) (d_max d a).
  Proof.
    intros Ha Hk Hn Hj. pose proof edge_bal as B. pose proof (joined_apart a Hn Hj) as Ap.
    destruct H as [E [HE [_ HF]]]. apply eposed_inv in HE. destruct (ef_agg _ _ _ _ HE a Ha Hk) as [r [Hr Hin]].
    pose proof (proj1 (edge_agg_row_ok S d y R I B a r Ha Hk Ap Hr) (HF r Hin)) as K. unfold within in K.
    destruct (flow_bounds _ _) as [[t lb] ub] eqn:Eb. eapply flow_bounds_ok; eauto.
  Qed.
End Limits.

(** ** Nothing on edges between domains *)
Lemma one_domain_inner S y : (forall a b, In (a, b) (s_edges S) -> s_domain S a = s_domain S b) -> inner_only S y.
Proof. intros H k a b Hk N. exfalso. apply N, H. eapply nth_error_In; eauto. Qed.

(** ** Optima *)
Section Optima.
  Variables (triv : bool) (S : sys) (d : data) (P E : lp).
  Hypothesis C : comparable triv S.
  Hypothesis Ac : ~ cyclic (inner_edge S).
  Hypothesis HP : posed triv S d = Ok P.
  Hypothesis HE : eposed triv S d = Ok E.
  Hypothesis Hc : forall r, In r (routes triv S) -> path_cost S d r == 0 \/ eps8 <= qabs (path_cost S d r).

  Lemma same_objective x y : inner_only S y -> (forall n, committed triv S x n == ecommitted S y n) -> objective P x == objective E y.
  Proof.
    intros I H. rewrite (objective_user_cost_exact triv S d P x (reg_wf _ (cmp_regular _ _ C)) HP Hc).
    rewrite (edge_objective_user_cost triv S d E y (cmp_regular _ _ C) I HE). now apply user_cost_ext.
  Qed.

  Lemma optimal_to_edge x : optimal P x ->
    feasible E (edges_of triv S x) /\ objective E (edges_of triv S x) == objective P x /\
    (forall z, feasible E z -> inner_only S z -> objective E (edges_of triv S x) <= objective E z).
  Proof.
    intros [F O]. destruct (route_to_edge triv S d P E x C Ac HP HE F) as [Fy [I Hn]].
    assert (objective P x == objective E (edges_of triv S x)) as Ho by (apply same_objective; [exact I|intros; symmetry; auto]).
    split; [exact Fy|]. split; [now symmetry|]. intros z Fz Iz.
    destruct (edge_to_route triv S d P E z C Ac HP HE Fz Iz) as [x' [Fx' [_ Hx']]].
    rewrite <- Ho, <- (same_objective x' z Iz Hx'). auto.
  Qed.

  Lemma optimal_to_route y : feasible E y -> inner_only S y ->
    (forall z, feasible E z -> inner_only S z -> objective E y <= objective E z) ->
    exists x, optimal P x /\ objective P x == objective E y /\ (forall n, committed triv S x n == ecommitted S y n) /\
      (forall k, (k < length (s_edges S))%nat -> y k == edges_of triv S x k).
  Proof.
    intros F I O. destruct (edge_to_route triv S d P E y C Ac HP HE F I) as [x [Fx [Hk Hx]]].
    exists x. pose proof (same_objective x y I Hx) as Ho. split; [|auto]. split; [exact Fx|]. intros x' Fx'.
    destruct (route_to_edge triv S d P E x' C Ac HP HE Fx') as [Fy' [I' Hn']].
    rewrite Ho, (same_objective x' _ I') by (intros; symmetry; auto). auto.
  Qed.
End Optima.
