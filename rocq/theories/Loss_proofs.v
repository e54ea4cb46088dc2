From Verif Require Import Base Paths Sorting Routes_model LP_model Sys_model RouteLP_model RouteLP_spec RouteLP_proofs RouteLP_flow
  EdgeLP_model EdgeLP_spec EdgeLP_proofs EdgeLP_limits Connect_model Connect_spec Connect_proofs Loss_model Loss_spec.
Local Open Scope nat_scope.
Local Open Scope list_scope.
Local Open Scope Q_scope.

Definition distinct (l : losslink) : Prop := NoDup [l_self l; l_output l; l_gross l; l_net l; l_agg l].

Lemma loss_edges_kept w l ops : distinct l -> (forall a b, In (a, b) (edges w) -> ~ inside l a /\ ~ inside l b) ->
  leaves_alone (new_losslink w l) (l_self l) (inside l) ops -> loss_edges (edges (perform (new_losslink w l) ops)) l.
Proof.
  intros D E [N U]. set (w1 := new_losslink w l) in *.
  assert (forall e, In e (edges w1) <-> In e (edges w) \/ e = (l_gross l, l_output l) \/ e = (l_gross l, l_net l)) as E1.
  { intros e. unfold w1, new_losslink. rewrite !add_edge_in. cbn [edges]. tauto. }
  assert (kind_of w1 (l_self l) = Through (l_net l) (l_gross l)) as K1.
  { unfold w1, new_losslink. destruct (add_edge_same (add_edge (World (model_of w) (fun n => if Nat.eqb n (l_self l) then Through (l_net l) (l_gross l) else if Nat.eqb n (l_agg l) then Bare
                    else if Nat.eqb n (l_output l) || Nat.eqb n (l_gross l) || Nat.eqb n (l_net l) then Plain else kind_of w n) (edges w) (dirty w)) (l_gross l, l_output l)) (l_gross l, l_net l)) as [[_ X] _].
    rewrite X. destruct (add_edge_same (World (model_of w) (fun n => if Nat.eqb n (l_self l) then Through (l_net l) (l_gross l) else if Nat.eqb n (l_agg l) then Bare
                    else if Nat.eqb n (l_output l) || Nat.eqb n (l_gross l) || Nat.eqb n (l_net l) then Plain else kind_of w n) (edges w) (dirty w)) (l_gross l, l_output l)) as [[_ Y] _].
    rewrite Y. cbn [kind_of]. now rewrite Nat.eqb_refl. }
  unfold distinct in D. repeat (apply NoDup_cons_iff in D as [? D]). cbn [In] in *.
  assert (forall n a s, ~ inside l n -> source (kind_of w1 n) n s a -> a = l_net l \/ ~ inside l a) as SR.
  { intros n a s I H'. destruct (Nat.eq_dec n (l_self l)) as [->|X]; [|right; now apply (U n s a X I); left]. rewrite K1 in H'. cbn in H'. now left. }
  assert (forall n a s, ~ inside l n -> target (kind_of w1 n) n s a -> a = l_gross l \/ ~ inside l a) as TG.
  { intros n a s I H'. destruct (Nat.eq_dec n (l_self l)) as [->|X]; [|right; now apply (U n s a X I); right]. rewrite K1 in H'. cbn in H'. now left. }
  split; [|split].
  - apply perform_keeps; [|apply E1; tauto]. cbn [fst]. intros o u Io Iu Z. apply (N o u Io Iu). unfold inside. subst u. tauto.
  - apply perform_keeps; [|apply E1; tauto]. cbn [fst]. intros o u Io Iu Z. apply (N o u Io Iu). unfold inside. subst u. tauto.
  - intros a b H'. apply perform_edges in H' as [H'|[u [v [f [t [I [A B]]]]]]].
    + apply E1 in H' as [H'|[H'|H']].
      * destruct (E a b H') as [Ea Eb]. unfold inside in *. repeat split; intros; subst; try tauto.
      * injection H' as -> ->. repeat split; intros; try tauto; try (intuition congruence).
      * injection H' as -> ->. repeat split; intros; try tauto; try (intuition congruence).
    + cbn [fst snd] in *. assert (~ inside l u) as Iu by (apply (N _ u I); now left). assert (~ inside l v) as Iv by (apply (N _ v I); right; now left).
      destruct (SR u a f Iu A) as [->|Ia], (TG v b t Iv B) as [->|Ib]; unfold inside in *; repeat split; intros; subst; try tauto; intuition congruence.
Qed.

(** ** Flows *)
Lemma succ_edge S r n : route_facts S r -> In n r -> n <> rlast r -> exists b, In b r /\ In (n, b) (s_edges S) /\ exists l m, r = l ++ n :: b :: m.
Proof.
  intros F H N. destruct (succ_unique r n (rf_nodup _ _ F) H N) as [b [Hb E]]. specialize (E b). rewrite Nat.eqb_refl in E.
  apply pair_in_iff in E as [l [m E]]. exists b. split; [exact Hb|]. split; [|now exists l, m].
  pose proof (rf_chain _ _ F) as Hc. rewrite E in Hc. now apply chain_mid in Hc.
Qed.
Lemma pred_edge S r n : route_facts S r -> In n r -> n <> rfirst r -> exists a, In a r /\ In (a, n) (s_edges S) /\ exists l m, r = l ++ a :: n :: m.
Proof.
  intros F H N. destruct (pred_unique r n (rf_nodup _ _ F) H N) as [b [Hb E]]. specialize (E b). rewrite Nat.eqb_refl in E.
  apply pair_in_iff in E as [l [m E]]. exists b. split; [exact Hb|]. split; [|now exists l, m].
  pose proof (rf_chain _ _ F) as Hc. rewrite E in Hc. now apply chain_mid in Hc.
Qed.

Section Loss.
  Variables (triv : bool) (S : sys) (d : data) (x : nat -> Q) (l : losslink) (k : loss_setting).
  Hypothesis (W : wf_sys S) (L : loss_in S d l k).

  Lemma loss_members : member_ok S (l_output l) /\ member_ok S (l_gross l) /\ member_ok S (l_net l).
  Proof.
    destruct (li_nodes _ _ _ _ L) as [N1 [N2 [N3 _]]]. destruct (li_kinds _ _ _ _ L) as [K1 [K2 [K3 _]]].
    split; [|split]; (split; [assumption|]; split; [now rewrite ?K1, ?K2, ?K3|]); try (now apply clean_link).
    intros a _. split; intros H; [congruence|]. destruct (li_edges _ _ _ _ L) as [_ [_ E]]. now apply E in H.
  Qed.

  Lemma loss_balance : committed triv S x (l_gross l) == committed triv S x (l_net l) + committed triv S x (l_output l).
  Proof.
    destruct loss_members as [M1 [M2 M3]]. rewrite !committed_memb by assumption.
    destruct (li_kinds _ _ _ _ L) as [K1 [K2 [K3 _]]]. destruct (li_edges _ _ _ _ L) as [_ [_ E]].
    rewrite <- rsum_plus. apply rsum_ext. intros r Hr. pose proof (routes_facts _ _ _ W Hr) as F.
    assert (forall n, s_kind S n = KLink -> In n r -> n <> rfirst r /\ n <> rlast r) as Mid.
    { intros n Kn _. split; intros Z; [pose proof (rf_first _ _ F)|pose proof (rf_last _ _ F)]; congruence. }
    assert (In (l_output l) r -> In (l_gross l) r /\ ~ In (l_net l) r) as O.
    { intros H. destruct (pred_edge S r (l_output l) F H) as [a [Ha [Ea [p [q Er]]]]].
      { intros Z. pose proof (rf_first _ _ F). congruence. }
      apply E in Ea as [_ [Ea _]]. rewrite (Ea (or_intror eq_refl)) in *. split; [exact Ha|]. intros Hn.
      destruct (pred_edge S r (l_net l) F Hn (proj1 (Mid _ K3 Hn))) as [a' [Ha' [Ea' [p' [q' Er']]]]].
      apply E in Ea' as [_ [Ea' _]]. rewrite (Ea' (or_introl eq_refl)) in *.
      destruct (succ_unique r (l_gross l) (rf_nodup _ _ F) Ha (proj2 (Mid _ K2 Ha))) as [b [_ Eb]].
      assert (pair_in (l_gross l) (l_output l) r = true) as P1 by (apply pair_in_iff; now exists p, q).
      assert (pair_in (l_gross l) (l_net l) r = true) as P2 by (apply pair_in_iff; now exists p', q').
      rewrite Eb in P1, P2. apply Nat.eqb_eq in P1, P2. congruence. }
    assert (In (l_net l) r -> In (l_gross l) r) as N.
    { intros H. destruct (pred_edge S r (l_net l) F H (proj1 (Mid _ K3 H))) as [a [Ha [Ea _]]].
      apply E in Ea as [_ [Ea _]]. now rewrite (Ea (or_introl eq_refl)) in *. }
    assert (In (l_gross l) r -> In (l_net l) r \/ In (l_output l) r) as G.
    { intros H. destruct (succ_edge S r (l_gross l) F H (proj2 (Mid _ K2 H))) as [b [Hb [Eb _]]].
      apply E in Eb as [Eb _]. destruct (Eb eq_refl) as [->| ->]; tauto. }
    destruct (membP (l_gross l) r), (membP (l_net l) r), (membP (l_output l) r); unfold bq; try (exfalso; tauto); ring.
  Qed.

End Loss.

(** A node that may not carry anything does not. *)
Lemma none_allowed mn v : within (flow_bounds mn (Fin 0)) v -> 0 <= v -> v == 0.
Proof.
  intros B A. revert B. unfold within, flow_bounds, constraint_type.
  destruct mn as [|a|]; cbn [eround8 near]; cbn [bounds_ok ext_le_q q_le_ext]; try tauto; change (round8 0) with 0.
  - intros B. lra.
  - destruct (qltbP (qabs (round8 a - 0)) eps8) as [E|E]; cbn [bounds_ok ext_le_q q_le_ext]; [|intros [_ B]; lra].
    revert E. unfold round8. destruct (qltbP (qabs a) eps8) as [E|E]; [intros _; tauto|]. intros E'. exfalso. apply E.
    assert (qabs a == qabs (a - 0)) as -> by (unfold qabs; qifs; lra). exact E'.
Qed.

(** What is lost, from the rows. *)
Lemma loss_share S d l k ty f nm (fl : nat -> Q) : loss_setup ty f nm = Some k -> loss_in S d l k ->
  fl (l_gross l) == fl (l_net l) + fl (l_output l) ->
  (forall n, n = l_output l \/ n = l_net l -> 0 <= fl n /\ within (flow_bounds (d_min d n) (d_max d n)) (fl n)) ->
  (forall f0 f1, s_has_factors S (l_agg l) = true -> d_factors d (l_agg l) = [f0; f1] -> fl (l_net l) * f1 == fl (l_output l) * f0) ->
  match ty with
  | Net => fl (l_output l) == loss_value f * fl (l_net l)
  | Gross => fl (l_output l) == loss_value f * fl (l_gross l)
  | Unknown => fl (l_output l) == 0 /\ loss_value f == 0
  end.
Proof.
  intros Hs L B M F. pose proof (li_has _ _ _ _ L) as Hh. pose proof (li_factors _ _ _ _ L) as Hf.
  destruct (li_output _ _ _ _ L) as [_ Ho]. pose proof (li_net _ _ _ _ L) as Hn.
  assert (k_output_max k = Fin 0 -> fl (l_output l) == 0) as ZO.
  { intros E. destruct (M (l_output l)) as [A W]; [now left|]. rewrite Ho, E in W. now apply none_allowed in W. }
  assert (k_net_max k = Fin 0 -> fl (l_net l) == 0) as ZN.
  { intros E. destruct (M (l_net l)) as [A W]; [now right|]. rewrite Hn, E in W. now apply none_allowed in W. }
  unfold loss_setup in Hs. destruct f as [q|q]; cbn [loss_value] in *.
  - destruct (qeqbP q 0) as [E0|E0].
    + injection Hs as <-. cbn in ZO. specialize (ZO eq_refl). destruct ty; [rewrite E0; lra|rewrite E0; lra|split; [lra|exact E0]].
    + destruct ty; cbn [andb] in Hs.
      * rewrite andb_false_r in Hs. injection Hs as <-. cbn in Hh, Hf. specialize (F 1 q Hh (Hf _ eq_refl)). lra.
      * destruct (qeqbP q 1) as [E1|E1]; cbn [andb] in Hs; injection Hs as <-; cbn in *.
        -- specialize (ZN eq_refl). rewrite E1. lra.
        -- specialize (F (1 - q) q Hh (Hf _ eq_refl)). rewrite B. lra.
      * rewrite andb_false_r in Hs. discriminate.
  - destruct ty; cbn [andb] in Hs; try discriminate. injection Hs as <-. cbn in Hh, Hf. specialize (F 1 q Hh (Hf _ eq_refl)). lra.
Qed.

Section Route.
  Variables (triv : bool) (S : sys) (d : data) (x : nat -> Q) (l : losslink) (k : loss_setting).
  Hypothesis (W : wf_sys S) (L : loss_in S d l k) (H : solved triv S d x).

  Lemma route_loss ty f nm : loss_setup ty f nm = Some k ->
    match ty with
    | Net => committed triv S x (l_output l) == loss_value f * committed triv S x (l_net l)
    | Gross => committed triv S x (l_output l) == loss_value f * committed triv S x (l_gross l)
    | Unknown => committed triv S x (l_output l) == 0 /\ loss_value f == 0
    end.
  Proof.
    intros Hs. destruct (li_nodes _ _ _ _ L) as [N1 [N2 [N3 N4]]]. destruct (li_kinds _ _ _ _ L) as [K1 [K2 [K3 K4]]].
    eapply loss_share; [exact Hs|exact L|eapply loss_balance; eauto| |].
    - assert (forall n, n = l_output l \/ n = l_net l -> In n (s_nodes S) /\ is_flow_node (s_kind S n) = true) as M.
      { intros n [->| ->]; [rewrite K1|rewrite K3]; now split. }
      intros n Hn. destruct (M n Hn) as [A B]. split; [now destruct (flow_in_bounds triv S d x n W H A B)|].
      destruct H as [P [HP HF]]. exact (flow_row triv S d P x n W HP HF A B).
    - intros f0 f1 Hh Hd. destruct (loss_members S d l k L) as [M1 [M2 M3]].
      apply (factor_ratio triv S d x (l_agg l) (l_net l) [l_output l] 1 (l_output l) f1 f0 W H N4 K4 Hh); auto.
      + exact (li_members _ _ _ _ L).
      + now rewrite Hd.
      + now rewrite Hd.
  Qed.
End Route.

Section Edges.
  Variables (triv : bool) (S : sys) (d : data) (y : nat -> Q) (l : losslink) (k : loss_setting).
  Hypothesis (R : regular S) (I : inner_only S y) (L : loss_in S d l k) (H : edge_solved triv S d y).

  Lemma edge_loss_balance : ecommitted S y (l_gross l) == ecommitted S y (l_net l) + ecommitted S y (l_output l).
  Proof.
    destruct (li_nodes _ _ _ _ L) as [N1 [N2 [N3 N4]]]. destruct (li_kinds _ _ _ _ L) as [K1 [K2 [K3 K4]]].
    destruct (li_edges _ _ _ _ L) as [_ [_ E]]. pose proof (edge_bal triv S d y H) as B.
    rewrite !(ecommitted_flow S y R I B) by (try assumption; now rewrite ?K1, ?K2, ?K3). unfold through. rewrite K1, K2, K3.
    rewrite <- (B (l_net l) N3 K3). unfold outflow, inflow. rewrite <- esum_plus. apply esum_ext. intros [a b] He. cbn [fst snd].
    destruct (same_domain S (a, b)); cbn [andb]; [|reflexivity]. destruct (E a b He) as [E1 [E2 _]].
    destruct (Nat.eqb_spec a (l_gross l)) as [Ea|Ea], (Nat.eqb_spec b (l_net l)) as [Eb|Eb], (Nat.eqb_spec b (l_output l)) as [Ec|Ec];
      unfold bq; try ring; exfalso; try tauto.
    all: congruence.
  Qed.

  Lemma edge_loss ty f nm : loss_setup ty f nm = Some k ->
    match ty with
    | Net => ecommitted S y (l_output l) == loss_value f * ecommitted S y (l_net l)
    | Gross => ecommitted S y (l_output l) == loss_value f * ecommitted S y (l_gross l)
    | Unknown => ecommitted S y (l_output l) == 0 /\ loss_value f == 0
    end.
  Proof.
    intros Hs. destruct (li_nodes _ _ _ _ L) as [N1 [N2 [N3 N4]]]. destruct (li_kinds _ _ _ _ L) as [K1 [K2 [K3 K4]]].
    eapply loss_share; [exact Hs|exact L|exact edge_loss_balance| |].
    - assert (forall n, n = l_output l \/ n = l_net l -> In n (s_nodes S) /\ is_flow_node (s_kind S n) = true) as M.
      { intros n [->| ->]; [rewrite K1|rewrite K3]; now split. }
      intros n Hn. destruct (M n Hn) as [A B]. split; [now destruct (edge_flow_in_bounds triv S d y R I H n A B)|].
      pose proof (edge_bal triv S d y H) as Bl. destruct H as [E [HE [_ HF]]]. apply eposed_inv in HE. destruct (ef_flow _ _ _ _ HE n A B) as [r [Hr Hin]].
      now destruct (proj1 (edge_flow_rows triv S d y R I Bl n r A B Hr) (fun r Hr => HF r (Hin r Hr))) as [X _].
    - intros f0 f1 Hh Hd.
      apply (edge_factor_ratio triv S d y R I H (l_agg l) (l_net l) [l_output l] 1 (l_output l) f1 f0 N4 K4 Hh); auto.
      + exact (li_members _ _ _ _ L).
      + now rewrite Hd.
      + now rewrite Hd.
  Qed.
End Edges.
