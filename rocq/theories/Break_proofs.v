(** Proofs about BreakLink. *)
From Coq Require Import Sorting.Permutation.
From Verif Require Import Base Paths Sorting Routes_model LP_model Sys_model RouteLP_model RouteLP_spec RouteLP_proofs RouteLP_flow
  EdgeLP_model EdgeLP_spec EdgeLP_meets EdgeLP_proofs EdgeLP_limits EdgeLP_decomp EdgeLP_posed Connect_model Connect_spec Connect_proofs Break_model Break_spec.
Local Open Scope nat_scope.
Local Open Scope list_scope.
Local Open Scope Q_scope.

(** ** Sums over edges by their ends *)
Lemma map_snd_enumerate {A} (l : list A) : map snd (enumerate l) = l.
Proof.
  unfold enumerate. generalize 0%nat. induction l as [|a l IH]; intros k; cbn; [reflexivity|]. now rewrite IH.
Qed.
Lemma esum_ends S y f g : (forall k e, nth_error (s_edges S) k = Some e -> y k == g e) ->
  esum S y f == qsum (map (fun e => f e * g e) (s_edges S)).
Proof.
  intros H. unfold esum. rewrite <- (map_snd_enumerate (s_edges S)) at 2. rewrite map_map. apply qsum_map_ext.
  intros [k e] Hk. cbn [fst snd]. rewrite (H k e); [reflexivity|]. now apply enumerate_In.
Qed.

Lemma NoDup_In_pos {A} (l : list A) e : In e l -> exists k, nth_error l k = Some e.
Proof. apply In_nth_error. Qed.

Section Break.
  Variables (S T : sys) (d d' : data) (b : breaklink).
  Hypothesis R : replaces S T d d' b.
  Notation c := (b_self b).
  Notation x := (b_link b).
  Notation st := (b_store b).
  Notation so := (b_out b).
  Notation si := (b_in b).
  Let C := rp_regular _ _ _ _ _ R.
  Let W := reg_wf _ C.

  Lemma fresh_facts : ~ In x (s_nodes S) /\ ~ In st (s_nodes S) /\ ~ In so (s_nodes S) /\ ~ In si (s_nodes S) /\
    x <> st /\ x <> so /\ x <> si /\ st <> so /\ st <> si /\ so <> si /\ c <> x /\ c <> st /\ c <> so /\ c <> si.
  Proof.
    pose proof (rp_fresh _ _ _ _ _ R) as F. destruct (rp_link _ _ _ _ _ R) as [L _].
    apply NoDup_cons_iff in F as [F1 F]. apply NoDup_cons_iff in F as [F2 F]. apply NoDup_cons_iff in F as [F3 F]. apply NoDup_cons_iff in F as [F4 F].
    cbn [In] in *. repeat split; try tauto; intros E; rewrite E in *; tauto.
  Qed.

  Lemma T_node n : In n (s_nodes T) <-> n = x \/ n = st \/ n = so \/ n = si \/ In n (s_nodes S).
  Proof.
    pose proof (rp_nodes _ _ _ _ _ R) as P. split.
    - intros H. apply (Permutation_in _ P) in H. cbn [In] in H. intuition.
    - intros H. apply (Permutation_in _ (Permutation_sym P)). cbn [In]. intuition.
  Qed.
  Lemma T_edge e : In e (s_edges T) <-> e = (si, x) \/ exists f, In f (s_edges S) /\ e = rerouted b f.
  Proof.
    pose proof (rp_edges _ _ _ _ _ R) as P. split.
    - intros H. apply (Permutation_in _ P) in H. cbn [In] in H. destruct H as [<-|H]; [now left|]. apply in_map_iff in H as [f [<- H]]. eauto.
    - intros H. apply (Permutation_in _ (Permutation_sym P)). cbn [In]. destruct H as [->|[f [H ->]]]; [now left|right; now apply in_map].
  Qed.

  Lemma rerouted_inj e f : In e (s_edges S) -> In f (s_edges S) -> rerouted b e = rerouted b f -> e = f.
  Proof.
    destruct fresh_facts as (F1 & F2 & F3 & F4 & _). destruct e as [a1 b1], f as [a2 b2]. intros He Hf E.
    destruct (wf_ends _ W _ _ He) as [A1 B1], (wf_ends _ W _ _ Hf) as [A2 B2]. unfold rerouted in E. cbn [fst snd] in E. injection E as E1 E2.
    f_equal.
    - destruct (Nat.eqb_spec a1 c), (Nat.eqb_spec a2 c); subst; try reflexivity; tauto.
    - destruct (Nat.eqb_spec b1 c), (Nat.eqb_spec b2 c); subst; try reflexivity; tauto.
  Qed.
  Lemma rerouted_old e : In e (s_edges S) -> rerouted b e <> (si, x).
  Proof.
    destruct fresh_facts as (F1 & F2 & F3 & F4 & _ & _ & F5 & _). destruct e as [a1 b1]. intros He E.
    destruct (wf_ends _ W _ _ He) as [A1 B1]. unfold rerouted in E. cbn [fst snd] in E. injection E as E1 E2.
    destruct (Nat.eqb_spec a1 c); congruence.
  Qed.

  Lemma T_edges_NoDup : NoDup (s_edges T).
  Proof.
    apply (Permutation_NoDup (Permutation_sym (rp_edges _ _ _ _ _ R))). constructor.
    - intros H. apply in_map_iff in H as [f [E H]]. exact (rerouted_old f H E).
    - apply NoDup_map_inj; [|exact (wf_edges _ W)]. intros e f He Hf. now apply rerouted_inj.
  Qed.

  Lemma T_same_domain e : In e (s_edges S) -> same_domain T (rerouted b e) = same_domain S e.
  Proof.
    destruct (rp_domains _ _ _ _ _ R) as (D1 & D2 & D3 & D4). destruct e as [a1 b1]. intros He. destruct (wf_ends _ W _ _ He) as [A1 B1].
    unfold same_domain, rerouted. cbn [fst snd].
    destruct (Nat.eqb_spec a1 c) as [->|N1], (Nat.eqb_spec b1 c) as [->|N2]; rewrite ?D2, ?D3, ?D1 by assumption; reflexivity.
  Qed.
  Lemma T_same_domain_in : same_domain T (si, x) = true.
  Proof. destruct (rp_domains _ _ _ _ _ R) as (D1 & D2 & D3 & D4). unfold same_domain. cbn [fst snd]. rewrite D2, D4. apply Nat.eqb_refl. Qed.

  (** *** [T] is regular *)
  Lemma S_slot_link : s_slot S c = NoSlot.
  Proof.
    destruct (rp_link _ _ _ _ _ R) as [L K]. destruct (s_slot S c) as [|p|p] eqn:E; [reflexivity| |]; exfalso.
    - apply (wf_inputs _ W c p L) in E. apply (wf_inputs_nodes _ W) in E as (_ & E & _). congruence.
    - apply (wf_outputs _ W c p L) in E. apply (wf_outputs_nodes _ W) in E as (_ & E & _). congruence.
  Qed.

  Lemma T_kind_flow n : In n (s_nodes S) -> n <> c -> is_flow_node (s_kind T n) = is_flow_node (s_kind S n).
  Proof. intros H N. destruct (rp_kinds _ _ _ _ _ R) as [K _]. now rewrite K. Qed.

  Lemma T_wf : wf_sys T.
  Proof.
    destruct fresh_facts as (F1 & F2 & F3 & F4 & N1 & N2 & N3 & N4 & N5 & N6 & N7 & N8 & N9 & N10).
    destruct (rp_kinds _ _ _ _ _ R) as (K0 & Kc & Kx & Kst & Kso & Ksi).
    destruct (rp_slots _ _ _ _ _ R) as (L0 & Lx & Lst & Lso & Lsi).
    destruct (rp_inputs _ _ _ _ _ R) as [I0 I1]. destruct (rp_outputs _ _ _ _ _ R) as [O0 O1].
    destruct (rp_link _ _ _ _ _ R) as [Hc Kl].
    assert (forall n p, In n (s_inputs S p) -> In n (s_nodes S) /\ s_kind S n = KInput /\ s_kind S p = KStorage /\ In p (s_nodes S) /\ n <> c /\ p <> c) as SI.
    { intros n p H. destruct (wf_inputs_nodes _ W n p H) as (A & B & D). split; [exact A|]. split; [exact B|]. split; [exact D|].
      split; [apply (wf_parent _ W n p); left; now apply (wf_inputs _ W)|]. split; intros ->; congruence. }
    assert (forall n p, In n (s_outputs S p) -> In n (s_nodes S) /\ s_kind S n = KOutput /\ s_kind S p = KStorage /\ In p (s_nodes S) /\ n <> c /\ p <> c) as SO.
    { intros n p H. destruct (wf_outputs_nodes _ W n p H) as (A & B & D). split; [exact A|]. split; [exact B|]. split; [exact D|].
      split; [apply (wf_parent _ W n p); right; now apply (wf_outputs _ W)|]. split; intros ->; congruence. }
    constructor.
    - apply (Permutation_NoDup (Permutation_sym (rp_nodes _ _ _ _ _ R))). exact (rp_fresh _ _ _ _ _ R).
    - exact T_edges_NoDup.
    - intros u v H. rewrite !T_node. apply T_edge in H as [H|[[a1 b1] [H E]]].
      + injection H as -> ->. tauto.
      + destruct (wf_ends _ W _ _ H) as [A B]. unfold rerouted in E. cbn [fst snd] in E. injection E as -> ->.
        destruct (Nat.eqb_spec a1 c), (Nat.eqb_spec b1 c); tauto.
    - intros n p H. apply T_node in H. destruct (Nat.eq_dec p st) as [->|Np].
      + rewrite I1. cbn [In]. destruct H as [->|[->|[->|[->|H]]]]; rewrite ?Lx, ?Lst, ?Lso, ?Lsi.
        * split; [discriminate|intros [E|[]]; congruence].
        * split; [discriminate|intros [E|[]]; congruence].
        * split; [discriminate|intros [E|[]]; congruence].
        * tauto.
        * rewrite L0 by (intros ->; tauto). split; [|intros [<-|[]]; tauto]. intros E. exfalso. apply F2. apply (wf_parent _ W n st). now left.
      + rewrite I0 by exact Np. destruct H as [->|[->|[->|[->|H]]]]; rewrite ?Lx, ?Lst, ?Lso, ?Lsi.
        * split; [discriminate|]. intros H. apply SI in H. tauto.
        * split; [discriminate|]. intros H. apply SI in H. tauto.
        * split; [discriminate|]. intros H. apply SI in H. tauto.
        * split; [congruence|]. intros H. apply SI in H. tauto.
        * rewrite L0 by (intros ->; tauto). apply (wf_inputs _ W). exact H.
    - intros n p H. apply T_node in H. destruct (Nat.eq_dec p st) as [->|Np].
      + rewrite O1. cbn [In]. destruct H as [->|[->|[->|[->|H]]]]; rewrite ?Lx, ?Lst, ?Lso, ?Lsi.
        * split; [discriminate|intros [E|[]]; congruence].
        * split; [discriminate|intros [E|[]]; congruence].
        * tauto.
        * split; [discriminate|intros [E|[]]; congruence].
        * rewrite L0 by (intros ->; tauto). split; [|intros [<-|[]]; tauto]. intros E. exfalso. apply F2. apply (wf_parent _ W n st). now right.
      + rewrite O0 by exact Np. destruct H as [->|[->|[->|[->|H]]]]; rewrite ?Lx, ?Lst, ?Lso, ?Lsi.
        * split; [discriminate|]. intros H. apply SO in H. tauto.
        * split; [discriminate|]. intros H. apply SO in H. tauto.
        * split; [congruence|]. intros H. apply SO in H. tauto.
        * split; [discriminate|]. intros H. apply SO in H. tauto.
        * rewrite L0 by (intros ->; tauto). apply (wf_outputs _ W). exact H.
    - intros n p H. destruct (Nat.eq_dec p st) as [->|Np].
      + rewrite I1 in H. destruct H as [<-|[]]. rewrite T_node. tauto.
      + rewrite I0 in H by exact Np. destruct (SI n p H) as (A & B & D & E & G & Hp). rewrite T_node, !K0 by assumption. tauto.
    - intros n p H. destruct (Nat.eq_dec p st) as [->|Np].
      + rewrite O1 in H. destruct H as [<-|[]]. rewrite T_node. tauto.
      + rewrite O0 in H by exact Np. destruct (SO n p H) as (A & B & D & E & G & Hp). rewrite T_node, !K0 by assumption. tauto.
    - intros n p H. rewrite T_node.
      destruct (Nat.eq_dec n x) as [->|M1]; [rewrite Lx in H; destruct H; discriminate|].
      destruct (Nat.eq_dec n st) as [->|M2]; [rewrite Lst in H; destruct H; discriminate|].
      destruct (Nat.eq_dec n so) as [->|M3]; [rewrite Lso in H; destruct H as [H|H]; [discriminate|injection H as <-; tauto]|].
      destruct (Nat.eq_dec n si) as [->|M4]; [rewrite Lsi in H; destruct H as [H|H]; [injection H as <-; tauto|discriminate]|].
      rewrite L0 in H by assumption. do 4 right. exact (wf_parent _ W n p H).
    - intros p. destruct (Nat.eq_dec p st) as [->|Np]; [rewrite I1; repeat constructor; easy|rewrite I0 by exact Np; apply (wf_inputs_NoDup _ W)].
    - intros p. destruct (Nat.eq_dec p st) as [->|Np]; [rewrite O1; repeat constructor; easy|rewrite O0 by exact Np; apply (wf_outputs_NoDup _ W)].
  Qed.

  Lemma T_regular : regular T.
  Proof.
    destruct fresh_facts as (F1 & F2 & F3 & F4 & N1 & N2 & N3 & N4 & N5 & N6 & N7 & N8 & N9 & N10).
    destruct (rp_kinds _ _ _ _ _ R) as (K0 & Kc & Kx & Kst & Kso & Ksi). destruct (rp_link _ _ _ _ _ R) as [Hc Kl].
    assert (forall a, In a (s_nodes T) -> s_kind T a = KAggregated \/ s_kind T a = KVirtual -> In a (s_nodes S) /\ a <> c /\ (s_kind S a = KAggregated \/ s_kind S a = KVirtual)) as AG.
    { intros a Ha Hk. apply T_node in Ha as [->|[->|[->|[->|Ha]]]]; try (rewrite ?Kx, ?Kst, ?Kso, ?Ksi in Hk; destruct Hk; discriminate).
      destruct (Nat.eq_dec a c) as [->|N]; [rewrite Kc in Hk; destruct Hk; discriminate|]. rewrite K0 in Hk by assumption. auto. }
    constructor.
    - exact T_wf.
    - intros u v H E. apply T_edge in H as [H|[[a1 b1] [H E']]].
      + injection H as -> ->. rewrite Kx, Ksi. split; discriminate.
      + destruct (wf_ends _ W _ _ H) as [A B]. pose proof (T_same_domain _ H) as SD. rewrite <- E' in SD. unfold same_domain in SD. cbn [fst snd] in SD.
        rewrite E, Nat.eqb_refl in SD. symmetry in SD. apply Nat.eqb_eq in SD. destruct (reg_clean _ C a1 b1 H SD) as [G1 G2].
        unfold rerouted in E'. cbn [fst snd] in E'. injection E' as -> ->.
        destruct (Nat.eqb_spec a1 c) as [->|M1], (Nat.eqb_spec b1 c) as [->|M2]; rewrite ?Kx, ?Kso, ?K0 by assumption; split; try discriminate; assumption.
    - intros u v H. apply T_edge in H as [H|[[a1 b1] [H E']]].
      + injection H as -> ->. rewrite Kx, Ksi. split; reflexivity.
      + destruct (wf_ends _ W _ _ H) as [A B]. destruct (reg_edges _ C a1 b1 H) as [G1 G2]. unfold rerouted in E'. cbn [fst snd] in E'. injection E' as -> ->.
        destruct (Nat.eqb_spec a1 c) as [->|M1], (Nat.eqb_spec b1 c) as [->|M2]; rewrite ?Kx, ?Kso, ?K0 by assumption; split; try reflexivity; assumption.
    - intros a m Ha Hk Hm. destruct (AG a Ha Hk) as (Ha' & Na & Hk'). destruct (rp_members _ _ _ _ _ R a Ha') as (E & _). rewrite E in Hm.
      destruct (reg_members _ C a m Ha' Hk' Hm) as [G1 G2]. rewrite T_node. assert (m <> c) by (intros ->; exact (rp_free _ _ _ _ _ R a Ha' Hk' Hm)).
      rewrite K0 by assumption. tauto.
    - intros a Ha Hk. destruct (AG a Ha (or_introl Hk)) as (Ha' & Na & Hk'). destruct (rp_members _ _ _ _ _ R a Ha') as (E & _ & _ & E2 & _).
      rewrite K0 in Hk by assumption. unfold weights_of. rewrite E, E2. exact (reg_weights _ C a Ha' Hk).
  Qed.

  Lemma S_apart a : In a (s_nodes S) -> s_kind S a = KAggregated -> edges_apart S a.
  Proof. intros Ha Hk. destruct (rp_apart _ _ _ _ _ R a Ha Hk). now apply joined_apart. Qed.
  Lemma T_apart a : In a (s_nodes T) -> s_kind T a = KAggregated -> edges_apart T a.
  Proof.
    destruct fresh_facts as (F1 & F2 & F3 & F4 & N1 & N2 & N3 & N4 & N5 & N6 & N7 & N8 & N9 & N10).
    destruct (rp_kinds _ _ _ _ _ R) as (K0 & Kc & Kx & Kst & Kso & Ksi).
    intros Ha Hk. apply T_node in Ha as [->|[->|[->|[->|Ha]]]]; try congruence.
    destruct (Nat.eq_dec a c) as [->|N]; [congruence|]. rewrite K0 in Hk by assumption.
    destruct (rp_members _ _ _ _ _ R a Ha) as (E & _). destruct (rp_apart _ _ _ _ _ R a Ha Hk) as [A B].
    apply joined_apart; rewrite E; [exact A|]. intros m m' Hm Hm' Kk He.
    destruct (reg_members _ C a m Ha (or_introl Hk) Hm) as [G1 _]. destruct (reg_members _ C a m' Ha (or_introl Hk) Hm') as [G2 _].
    assert (m <> c) by (intros ->; exact (rp_free _ _ _ _ _ R a Ha (or_introl Hk) Hm)). assert (m' <> c) by (intros ->; exact (rp_free _ _ _ _ _ R a Ha (or_introl Hk) Hm')).
    rewrite K0 in Kk by assumption. apply (B m m' Hm Hm' Kk). apply T_edge in He as [He|[[a1 b1] [He E']]]; [injection He as -> ->; tauto|].
    unfold rerouted in E'. cbn [fst snd] in E'. injection E' as E1 E2.
    destruct (Nat.eqb_spec a1 c), (Nat.eqb_spec b1 c); subst; tauto.
  Qed.

  (** *** The same allocation in both models *)
  Definition carried (y y' : nat -> Q) : Prop :=
    forall k k' e, nth_error (s_edges S) k = Some e -> nth_error (s_edges T) k' = Some (rerouted b e) -> y' k' == y k.
  Definition released (y' : nat -> Q) : Q := edge_amount T y' si x.

  Lemma amount_at U y k u v : NoDup (s_edges U) -> nth_error (s_edges U) k = Some (u, v) -> edge_amount U y u v == y k.
  Proof.
    intros N H. unfold edge_amount. apply nth_error_split in H as [l1 [l2 [E L]]]. subst k. rewrite E in *. clear E.
    rewrite app_length. cbn [List.length]. rewrite seq_app. cbn [seq Nat.add]. rewrite map_app, qsum_app. cbn [map qsum].
    rewrite (qsum_map_zero _ (seq 0 (List.length l1))).
    2:{ intros k Hk. apply in_seq in Hk. rewrite app_nth1 by lia.
        destruct (Nat.eqb_spec (fst (nth k l1 (0, 0)%nat)) u) as [A|A]; [|reflexivity].
        destruct (Nat.eqb_spec (snd (nth k l1 (0, 0)%nat)) v) as [B|B]; [|reflexivity]. exfalso.
        apply NoDup_remove_2 in N. apply N, in_or_app. left. assert (In (nth k l1 (0, 0)%nat) l1) as I by (apply nth_In; lia).
        destruct (nth k l1 (0, 0)%nat) as [u' v']. cbn [fst snd] in *. subst. exact I. }
    rewrite app_nth2, Nat.sub_diag by lia. cbn [nth fst snd]. rewrite !Nat.eqb_refl. cbn [andb].
    rewrite (qsum_map_zero _ (seq (Datatypes.S (List.length l1)) (List.length l2))); [ring|].
    intros k Hk. apply in_seq in Hk. rewrite app_nth2 by lia. destruct (k - List.length l1)%nat as [|j] eqn:J; [lia|]. cbn [nth].
    destruct (Nat.eqb_spec (fst (nth j l2 (0, 0)%nat)) u) as [A|A]; [|reflexivity].
    destruct (Nat.eqb_spec (snd (nth j l2 (0, 0)%nat)) v) as [B|B]; [|reflexivity]. exfalso.
    apply NoDup_remove_2 in N. apply N, in_or_app. right. assert (In (nth j l2 (0, 0)%nat) l2) as I by (apply nth_In; lia).
    destruct (nth j l2 (0, 0)%nat) as [u' v']. cbn [fst snd] in *. subst. exact I.
  Qed.

  Lemma esum_carried y y' f : carried y y' -> esum T y' f == f (si, x) * released y' + esum S y (fun e => f (rerouted b e)).
  Proof.
    intros H. set (g := fun e : nat * nat => edge_amount T y' (fst e) (snd e)).
    rewrite (esum_ends T y' f g).
    2:{ intros k [u v] Hk. unfold g. cbn [fst snd]. symmetry. apply amount_at; [exact T_edges_NoDup|exact Hk]. }
    rewrite (qsum_Permutation _ _ (Permutation_map (fun e => f e * g e) (rp_edges _ _ _ _ _ R))). cbn [map qsum].
    rewrite map_map. rewrite (esum_ends S y (fun e => f (rerouted b e)) (fun e => g (rerouted b e))); [reflexivity|].
    intros k e Hk. assert (In (rerouted b e) (s_edges T)) as I by (apply T_edge; right; exists e; split; [eapply nth_error_In; eauto|reflexivity]).
    apply In_nth_error in I as [k' Hk']. rewrite <- (H k k' e Hk Hk'). unfold g. symmetry. apply amount_at; [exact T_edges_NoDup|].
    rewrite Hk'. destruct (rerouted b e); reflexivity.
  Qed.

  Lemma carried_inner y y' : carried y y' -> (inner_only S y <-> inner_only T y').
  Proof.
    intros H. split; intros I k u v Hk N.
    - pose proof (nth_error_In _ _ Hk) as E. apply T_edge in E as [E|[e [E Er]]].
      + injection E as -> ->. pose proof T_same_domain_in as SD. unfold same_domain in SD. cbn [fst snd] in SD. apply Nat.eqb_eq in SD. contradiction.
      + pose proof (T_same_domain e E) as SD. rewrite <- Er in SD. unfold same_domain in SD. cbn [fst snd] in SD.
        apply In_nth_error in E as [j Hj]. rewrite Er in Hk. rewrite (H j k e Hj Hk). destruct e as [a1 b1]. apply (I j a1 b1 Hj).
        intros Q. cbn [fst snd] in SD. rewrite Q, Nat.eqb_refl in SD. apply Nat.eqb_eq in SD. contradiction.
    - pose proof (nth_error_In _ _ Hk) as E. pose proof (T_same_domain _ E) as SD.
      assert (In (rerouted b (u, v)) (s_edges T)) as E' by (apply T_edge; right; eauto). apply In_nth_error in E' as [j Hj].
      rewrite <- (H k j _ Hk Hj). destruct (rerouted b (u, v)) as [u' v'] eqn:Er. apply (I j u' v' Hj). intros Q.
      unfold same_domain in SD. cbn [fst snd] in SD. rewrite Q, Nat.eqb_refl in SD. symmetry in SD. apply Nat.eqb_eq in SD. contradiction.
  Qed.

  Lemma carried_in_old y y' n : carried y y' -> In n (s_nodes S) -> n <> c -> inflow T y' n == inflow S y n.
  Proof.
    destruct fresh_facts as (F1 & F2 & F3 & F4 & N1 & N2 & N3 & N4 & N5 & N6 & N7 & N8 & N9 & N10).
    intros H Hn N. unfold inflow. rewrite (esum_carried y y') by exact H. cbn [fst snd].
    destruct (Nat.eqb_spec x n) as [E|E]; [subst n; tauto|]. rewrite andb_false_r. unfold bq at 1. rewrite Qmult_0_l, Qplus_0_l. apply esum_ext.
    intros [a1 b1] He. rewrite T_same_domain by exact He. destruct (wf_ends _ W _ _ He) as [A B]. f_equiv. f_equal.
    cbn [snd rerouted]. destruct (Nat.eqb_spec b1 c) as [->|M]; [|reflexivity].
    destruct (Nat.eqb_spec so n) as [E'|E']; [subst n; tauto|]. symmetry. apply Nat.eqb_neq. congruence.
  Qed.
  Lemma carried_out_old y y' n : carried y y' -> In n (s_nodes S) -> n <> c -> outflow T y' n == outflow S y n.
  Proof.
    destruct fresh_facts as (F1 & F2 & F3 & F4 & N1 & N2 & N3 & N4 & N5 & N6 & N7 & N8 & N9 & N10).
    intros H Hn N. unfold outflow. rewrite (esum_carried y y') by exact H. cbn [fst snd].
    destruct (Nat.eqb_spec si n) as [E|E]; [subst n; tauto|]. rewrite andb_false_r. unfold bq at 1. rewrite Qmult_0_l, Qplus_0_l. apply esum_ext.
    intros [a1 b1] He. rewrite T_same_domain by exact He. destruct (wf_ends _ W _ _ He) as [A B]. f_equiv. f_equal.
    cbn [fst rerouted]. destruct (Nat.eqb_spec a1 c) as [->|M]; [|reflexivity].
    destruct (Nat.eqb_spec x n) as [E'|E']; [subst n; tauto|]. symmetry. apply Nat.eqb_neq. congruence.
  Qed.
  Lemma carried_in_so y y' : carried y y' -> inflow T y' so == inflow S y c.
  Proof.
    destruct fresh_facts as (F1 & F2 & F3 & F4 & N1 & N2 & N3 & N4 & N5 & N6 & N7 & N8 & N9 & N10).
    intros H. unfold inflow. rewrite (esum_carried y y') by exact H. cbn [fst snd].
    destruct (Nat.eqb_spec x so) as [E|E]; [tauto|]. rewrite andb_false_r. unfold bq at 1. rewrite Qmult_0_l, Qplus_0_l. apply esum_ext.
    intros [a1 b1] He. rewrite T_same_domain by exact He. destruct (wf_ends _ W _ _ He) as [A B]. f_equiv. f_equal.
    cbn [snd rerouted]. destruct (Nat.eqb_spec b1 c) as [->|M]; [apply Nat.eqb_refl|]. apply Nat.eqb_neq. intros ->. tauto.
  Qed.
  Lemma carried_in_x y y' : carried y y' -> inflow T y' x == released y'.
  Proof.
    destruct fresh_facts as (F1 & F2 & F3 & F4 & N1 & N2 & N3 & N4 & N5 & N6 & N7 & N8 & N9 & N10).
    intros H. unfold inflow. rewrite (esum_carried y y') by exact H. rewrite T_same_domain_in. cbn [fst snd andb]. rewrite Nat.eqb_refl. unfold bq at 1.
    rewrite esum_zero; [ring|]. intros [a1 b1] He. destruct (wf_ends _ W _ _ He) as [A B]. cbn [snd rerouted].
    destruct (Nat.eqb_spec b1 c) as [->|M].
    - destruct (Nat.eqb_spec so x); [congruence|]. now rewrite andb_false_r.
    - destruct (Nat.eqb_spec b1 x) as [->|]; [tauto|]. now rewrite andb_false_r.
  Qed.
  Lemma carried_out_x y y' : carried y y' -> outflow T y' x == outflow S y c.
  Proof.
    destruct fresh_facts as (F1 & F2 & F3 & F4 & N1 & N2 & N3 & N4 & N5 & N6 & N7 & N8 & N9 & N10).
    intros H. unfold outflow. rewrite (esum_carried y y') by exact H. cbn [fst snd].
    destruct (Nat.eqb_spec si x) as [E|E]; [congruence|]. rewrite andb_false_r. unfold bq at 1. rewrite Qmult_0_l, Qplus_0_l. apply esum_ext.
    intros [a1 b1] He. rewrite T_same_domain by exact He. destruct (wf_ends _ W _ _ He) as [A B]. f_equiv. f_equal.
    cbn [fst rerouted]. destruct (Nat.eqb_spec a1 c) as [->|M]; [apply Nat.eqb_refl|]. apply Nat.eqb_neq. intros ->. tauto.
  Qed.
  Lemma carried_out_si y y' : carried y y' -> outflow T y' si == released y'.
  Proof.
    destruct fresh_facts as (F1 & F2 & F3 & F4 & N1 & N2 & N3 & N4 & N5 & N6 & N7 & N8 & N9 & N10).
    intros H. unfold outflow. rewrite (esum_carried y y') by exact H. rewrite T_same_domain_in. cbn [fst snd andb]. rewrite Nat.eqb_refl. unfold bq at 1.
    rewrite esum_zero; [ring|]. intros [a1 b1] He. destruct (wf_ends _ W _ _ He) as [A B]. cbn [fst rerouted].
    destruct (Nat.eqb_spec a1 c) as [->|M].
    - destruct (Nat.eqb_spec x si); [congruence|]. now rewrite andb_false_r.
    - destruct (Nat.eqb_spec a1 si) as [->|]; [tauto|]. now rewrite andb_false_r.
  Qed.

  Section Pair.
    Variables (y y' : nat -> Q).
    Hypothesis H : carried y y'.
    Hypothesis I : inner_only S y.
    Let I' : inner_only T y' := proj1 (carried_inner y y' H) I.

    Lemma balanced_iff : balanced T y' <->
      (forall n, In n (s_nodes S) -> n <> c -> s_kind S n = KLink -> inflow S y n == outflow S y n) /\ released y' == outflow S y c.
    Proof.
      destruct (rp_kinds _ _ _ _ _ R) as (K0 & Kc & Kx & Kst & Kso & Ksi). split.
      - intros Bt. split.
        + intros n Hn N K. rewrite <- (carried_in_old y y' n H Hn N), <- (carried_out_old y y' n H Hn N). apply Bt; [apply T_node; tauto|now rewrite K0].
        + rewrite <- (carried_in_x y y' H), <- (carried_out_x y y' H). apply Bt; [apply T_node; tauto|exact Kx].
      - intros [B1 B2] n Hn K. apply T_node in Hn as [->|[->|[->|[->|Hn]]]]; try congruence.
        + rewrite (carried_in_x y y' H), (carried_out_x y y' H). exact B2.
        + destruct (Nat.eq_dec n c) as [->|N]; [congruence|]. rewrite K0 in K by assumption.
          rewrite (carried_in_old y y' n H Hn N), (carried_out_old y y' n H Hn N). now apply B1.
    Qed.

    Hypothesis B : balanced T y'.
    Hypothesis BS : inflow S y c == outflow S y c.

    Lemma S_balanced : balanced S y.
    Proof. intros n Hn K. destruct (Nat.eq_dec n c) as [->|N]; [exact BS|]. now apply (proj1 balanced_iff B). Qed.
    Let B' := S_balanced.

    Lemma report_old n : In n (s_nodes S) -> n <> c -> ecommitted T y' n == ecommitted S y n.
    Proof.
      destruct (rp_kinds _ _ _ _ _ R) as (K0 & Kc & Kx & Kst & Kso & Ksi). destruct fresh_facts as (F1 & F2 & F3 & F4 & _).
      intros Hn N. assert (In n (s_nodes T)) as Hn' by (apply T_node; tauto).
      destruct (is_flow_node (s_kind S n)) eqn:F.
      - rewrite (ecommitted_flow T y' T_regular I' B), (ecommitted_flow S y C I B') by (try assumption; rewrite K0 by assumption; assumption).
        unfold through. rewrite K0 by assumption. destruct (s_kind S n); first [now apply carried_in_old|now apply carried_out_old].
      - destruct (s_kind S n) eqn:K; try discriminate.
        + rewrite (ecommitted_storage T y' T_regular I' B), (ecommitted_storage S y C I B') by (try assumption; rewrite K0; assumption).
          destruct (rp_inputs _ _ _ _ _ R) as [I0 _]. destruct (rp_outputs _ _ _ _ _ R) as [O0 _]. rewrite I0, O0 by congruence.
          apply Qplus_comp; [|apply Qopp_comp]; apply qsum_map_ext; intros m Hm.
          * destruct (wf_outputs_nodes _ W m n Hm) as (A1 & A2 & _). apply carried_in_old; [exact H|exact A1|]. intros ->. destruct (rp_link _ _ _ _ _ R); congruence.
          * destruct (wf_inputs_nodes _ W m n Hm) as (A1 & A2 & _). apply carried_out_old; [exact H|exact A1|]. intros ->. destruct (rp_link _ _ _ _ _ R); congruence.
        + rewrite (ecommitted_other T y' T_regular I'), (ecommitted_other S y C I); rewrite ?K0, ?K by assumption; (reflexivity || assumption || discriminate).
        + rewrite (ecommitted_other T y' T_regular I'), (ecommitted_other S y C I); rewrite ?K0, ?K by assumption; (reflexivity || assumption || discriminate).
        + rewrite (ecommitted_other T y' T_regular I'), (ecommitted_other S y C I); rewrite ?K0, ?K by assumption; (reflexivity || assumption || discriminate).
    Qed.
    Lemma report_link : ecommitted T y' x == ecommitted S y c.
    Proof.
      destruct (rp_kinds _ _ _ _ _ R) as (K0 & Kc & Kx & Kst & Kso & Ksi). destruct (rp_link _ _ _ _ _ R) as [L K].
      rewrite (ecommitted_flow T y' T_regular I' B), (ecommitted_flow S y C I B'); rewrite ?Kx, ?K; try reflexivity; try assumption; try (apply T_node; tauto).
      unfold through. rewrite Kx, K. now apply carried_out_x.
    Qed.
    Lemma report_self : ecommitted T y' c == 0.
    Proof.
      destruct (rp_kinds _ _ _ _ _ R) as (K0 & Kc & Kx & Kst & Kso & Ksi). destruct (rp_link _ _ _ _ _ R) as [L K].
      apply (ecommitted_other T y' T_regular I'); rewrite ?Kc; [apply T_node; tauto|reflexivity|discriminate].
    Qed.
    Lemma report_store : ecommitted T y' st == 0.
    Proof.
      destruct (rp_kinds _ _ _ _ _ R) as (K0 & Kc & Kx & Kst & Kso & Ksi).
      rewrite (ecommitted_storage T y' T_regular I' B) by (try exact Kst; apply T_node; tauto).
      destruct (rp_inputs _ _ _ _ _ R) as [_ ->]. destruct (rp_outputs _ _ _ _ _ R) as [_ ->]. cbn [map qsum].
      rewrite (carried_in_so y y' H), (carried_out_si y y' H), (proj2 (proj1 balanced_iff B)), BS. ring.
    Qed.
    Lemma report_slots : ecommitted T y' so == ecommitted S y c /\ ecommitted T y' si == ecommitted S y c.
    Proof.
      destruct (rp_kinds _ _ _ _ _ R) as (K0 & Kc & Kx & Kst & Kso & Ksi). destruct (rp_link _ _ _ _ _ R) as [L K].
      rewrite (ecommitted_flow S y C I B'); rewrite ?K; try reflexivity; try assumption.
      rewrite !(ecommitted_flow T y' T_regular I' B); rewrite ?Kso, ?Ksi; try reflexivity; try (apply T_node; tauto).
      unfold through. rewrite Kso, Ksi, K. rewrite (carried_in_so y y' H), (carried_out_si y y' H), (proj2 (proj1 balanced_iff B)), BS. split; reflexivity.
    Qed.
    Lemma reports_same : same_reports S b (ecommitted S y) (ecommitted T y').
    Proof.
      intros n Hn. unfold reported. destruct (Nat.eqb_spec n c) as [->|N]; [|now apply report_old]. rewrite report_self, report_link. ring.
    Qed.
  End Pair.

  (** *** Limits and costs *)
  Section Flows.
    Variables (fl fl' : nat -> Q).
    Hypothesis Hold : forall n, In n (s_nodes S) -> n <> c -> fl' n == fl n.
    Hypothesis Hlink : fl' x == fl c.
    Hypothesis Hstore : fl' st == 0.

    Lemma feeds_old o i : In o (s_nodes S) -> o <> c -> In i (s_nodes S) -> feeds T o i = feeds S o i.
    Proof.
      destruct fresh_facts as (F1 & F2 & F3 & F4 & _). destruct (rp_kinds _ _ _ _ _ R) as (K0 & Kc & Kx & Kst & Kso & Ksi).
      destruct (rp_domains _ _ _ _ _ R) as (D1 & _). destruct (rp_link _ _ _ _ _ R) as [L K]. intros Ho No Hi. apply eq_true_iff_eq. rewrite !feeds_iff.
      rewrite !D1 by assumption. split.
      - intros (A & B1 & D). assert (i <> c) as Ni by congruence. rewrite K0 in A by assumption. split; [exact A|]. split; [exact B1|].
        apply T_edge in D as [D|[[a1 b1] [D E]]]; [injection D as -> ->; tauto|]. unfold rerouted in E. cbn [fst snd] in E. injection E as E1 E2.
        destruct (Nat.eqb_spec a1 c), (Nat.eqb_spec b1 c); subst; tauto.
      - intros (A & B1 & D). assert (i <> c) as Ni by congruence. rewrite K0 by assumption. split; [exact A|]. split; [exact B1|].
        apply T_edge. right. exists (o, i). split; [exact D|]. unfold rerouted. cbn [fst snd]. now rewrite (proj2 (Nat.eqb_neq o c) No), (proj2 (Nat.eqb_neq i c) Ni).
    Qed.
    Lemma feeds_new o i : feeds T o i = true -> In i (s_nodes S) /\ o <> so.
    Proof.
      destruct fresh_facts as (F1 & F2 & F3 & F4 & N1 & N2 & N3 & N4 & N5 & N6 & N7 & N8 & N9 & N10). destruct (rp_kinds _ _ _ _ _ R) as (K0 & Kc & Kx & Kst & Kso & Ksi).
      rewrite feeds_iff. intros (A & B1 & D). apply T_edge in D as [D|[[a1 b1] [D E]]].
      - injection D as -> ->. congruence.
      - destruct (wf_ends _ W _ _ D) as [G1 G2]. unfold rerouted in E. cbn [fst snd] in E. injection E as -> ->. split.
        + destruct (Nat.eqb_spec b1 c); [congruence|exact G2].
        + destruct (Nat.eqb_spec a1 c); [congruence|]. intros ->. tauto.
    Qed.
    Lemma fed_same o : In o (s_nodes S) -> o <> c -> forall g : nat -> Q,
      qsum (map g (filter (feeds T o) (s_nodes T))) == qsum (map g (filter (feeds S o) (s_nodes S))).
    Proof.
      intros Ho No g. rewrite !qsum_filter. rewrite (qsum_Permutation _ _ (Permutation_map _ (rp_nodes _ _ _ _ _ R))). cbn [map qsum].
      destruct fresh_facts as (F1 & F2 & F3 & F4 & _).
      assert (forall i, ~ In i (s_nodes S) -> bq (feeds T o i) == 0) as Z.
      { intros i Hi. destruct (feeds T o i) eqn:E; [|reflexivity]. exfalso. apply Hi. now apply (feeds_new o i). }
      rewrite !Z by assumption. rewrite (qsum_map_ext (fun i => bq (feeds S o i) * g i) (fun i => bq (feeds T o i) * g i)); [ring|].
      intros i Hi. now rewrite feeds_old.
    Qed.

    Lemma members_same a : In a (s_nodes S) -> s_kind S a = KAggregated \/ s_kind S a = KVirtual ->
      aggregated_flow T fl' a == aggregated_flow S fl a /\ virtual_flow T fl' a == virtual_flow S fl a.
    Proof.
      intros Ha Hk. destruct (rp_members _ _ _ _ _ R a Ha) as (M & V & HF & Wt & _).
      assert (forall m, In m (s_members S a) -> fl' m == fl m) as Q.
      { intros m Hm. apply Hold; [apply (reg_members _ C a m Ha Hk Hm)|]. intros ->. exact (rp_free _ _ _ _ _ R a Ha Hk Hm). }
      split.
      - unfold aggregated_flow, weights_of. rewrite M, Wt. apply qsum_map_ext. intros [m w] Hm. cbn [fst snd]. rewrite Q; [reflexivity|]. eapply in_combine_l; eauto.
      - rewrite !virtual_flow_sum, M, V. apply Qopp_comp, qsum_map_ext. intros [m w] Hm. cbn [fst snd]. rewrite Q; [reflexivity|]. eapply in_combine_l; eauto.
    Qed.

    Lemma meets_iff : 0 <= fl' so -> 0 <= fl' si -> meets S d fl <-> meets T d' fl'.
    Proof.
      destruct fresh_facts as (F1 & F2 & F3 & F4 & N1 & N2 & N3 & N4 & N5 & N6 & N7 & N8 & N9 & N10).
      destruct (rp_kinds _ _ _ _ _ R) as (K0 & Kc & Kx & Kst & Kso & Ksi). destruct (rp_link _ _ _ _ _ R) as [L K].
      destruct (rp_link_data _ _ _ _ _ R) as (X1 & X2 & X3). destruct (rp_store_data _ _ _ _ _ R) as (Y1 & Y2 & Y3). destruct (rp_slot_data _ _ _ _ _ R) as (Z1 & Z2 & Z3 & Z4).
      pose proof (rp_data _ _ _ _ _ R) as DD. pose proof (rp_days _ _ _ _ _ R) as Dy.
      assert (forall a m, In a (s_nodes S) -> s_kind S a = KAggregated -> In m (s_members S a) -> fl' m == fl m) as Q.
      { intros a m Ha Hk Hm. apply Hold; [apply (reg_members _ C a m Ha (or_introl Hk) Hm)|]. intros ->. exact (rp_free _ _ _ _ _ R a Ha (or_introl Hk) Hm). }
      assert (forall n, In n (s_nodes T) -> s_kind T n = KStorage -> n = st \/ In n (s_nodes S) /\ n <> c /\ s_kind S n = KStorage) as TS.
      { intros n Hn Hk. apply T_node in Hn as [->|[->|[->|[->|Hn]]]]; try congruence; [now left|right]. destruct (Nat.eq_dec n c) as [->|N]; [congruence|]. rewrite K0 in Hk by assumption. auto. }
      assert (forall n k, In n (s_nodes T) -> s_kind T n = k -> k = KAggregated \/ k = KVirtual -> In n (s_nodes S) /\ n <> c /\ s_kind S n = k) as TA.
      { intros n k Hn Hk Ho. apply T_node in Hn as [->|[->|[->|[->|Hn]]]]; try (exfalso; destruct Ho; congruence).
        destruct (Nat.eq_dec n c) as [->|N]; [exfalso; destruct Ho; congruence|]. rewrite K0 in Hk by assumption. auto. }
      intros P1 P2. split; intros M.
      - split.
        + intros n Hn Hf. apply T_node in Hn as [->|[->|[->|[->|Hn]]]].
          * rewrite X2, X3. apply (within_ext _ (fl c)); [now symmetry|]. apply (meets_flow _ _ _ M); [exact L|now rewrite K].
          * rewrite Kst in Hf. discriminate.
          * rewrite Z1, Z2. exact P1.
          * rewrite Z3, Z4. exact P2.
          * destruct (Nat.eq_dec n c) as [->|N]; [rewrite Kc in Hf; discriminate|]. destruct (DD n Hn N) as (_ & E1 & E2 & _). rewrite E1, E2.
            apply (within_ext _ (fl n)); [symmetry; now apply Hold|]. apply (meets_flow _ _ _ M); [exact Hn|]. now rewrite <- K0.
        + intros o Ho Hk [i Hi]. apply T_node in Ho as [->|[->|[->|[->|Ho]]]]; try congruence; [now apply feeds_new in Hi|].
          destruct (Nat.eq_dec o c) as [->|N]; [congruence|]. rewrite K0 in Hk by assumption. rewrite (fed_same o Ho N), (Hold o Ho N).
          rewrite (meets_cross _ _ _ M o Ho Hk).
          * apply qsum_map_ext. intros j Hj. apply filter_In in Hj as [Hj Fj]. destruct (rp_members _ _ _ _ _ R j Hj) as (_ & _ & _ & _ & ->).
            apply feeds_iff in Fj as (Fj & _). rewrite (Hold j Hj); [reflexivity|congruence].
          * exists i. rewrite <- (feeds_old o i); [exact Hi|exact Ho|exact N|now apply (feeds_new o i)].
        + intros n Hn Hk. destruct (TS n Hn Hk) as [->|(Hn' & N & Hk')].
          * rewrite Y2, Y3. unfold storage_bounds. change (qeqb 0 0) with true. cbn. exact Hstore.
          * destruct (DD n Hn' N) as (_ & _ & _ & _ & E1 & E2 & E3 & _). rewrite E1, E2, E3, Dy. apply (within_ext _ (fl n)); [symmetry; now apply Hold|].
            now apply (meets_storage _ _ _ M).
        + intros n Hn Hk. destruct (TA n _ Hn Hk (or_intror eq_refl)) as (Hn' & N & Hk').
          destruct (DD n Hn' N) as (_ & _ & _ & _ & E1 & E2 & E3 & E4). rewrite E1, E2, E3, E4, Dy.
          apply (within_ext _ (virtual_flow S fl n)); [symmetry; now apply members_same; auto|]. now apply (meets_virtual _ _ _ M).
        + intros a m0 ms m g Ha Hk Hf Hm Hin. destruct (TA a _ Ha Hk (or_introl eq_refl)) as (Ha' & N & Hk').
          destruct (rp_members _ _ _ _ _ R a Ha') as (E1 & _ & E2 & _). destruct (DD a Ha' N) as (_ & _ & _ & E3 & _). rewrite E1 in Hm. rewrite E2 in Hf. rewrite E3 in *.
          rewrite (Q a m0 Ha' Hk'), (Q a m Ha' Hk'); [|rewrite Hm; right; eapply in_combine_l; eauto|rewrite Hm; now left]. eapply (meets_factors _ _ _ M); eauto.
        + intros n Hn Hk. destruct (TA n _ Hn Hk (or_introl eq_refl)) as (Hn' & N & Hk').
          destruct (DD n Hn' N) as (_ & E1 & E2 & _). rewrite E1, E2. apply (within_ext _ (aggregated_flow S fl n)); [symmetry; now apply members_same; auto|]. now apply (meets_agg _ _ _ M).
      - assert (forall n, In n (s_nodes S) -> In n (s_nodes T)) as IT by (intros n Hn; apply T_node; tauto). split.
        + intros n Hn Hf. destruct (Nat.eq_dec n c) as [->|N].
          * rewrite <- X2, <- X3. apply (within_ext _ (fl' x)); [exact Hlink|]. apply (meets_flow _ _ _ M); [apply T_node; tauto|now rewrite Kx].
          * destruct (DD n Hn N) as (_ & E1 & E2 & _). rewrite <- E1, <- E2. apply (within_ext _ (fl' n)); [now apply Hold|].
            apply (meets_flow _ _ _ M); [auto|]. now rewrite K0.
        + intros o Ho Hk [i Hi]. assert (o <> c) as N by congruence. rewrite <- (Hold o Ho N).
          rewrite (meets_cross _ _ _ M o (IT o Ho)); [|now rewrite K0|].
          * rewrite (fed_same o Ho N). apply qsum_map_ext. intros j Hj. apply filter_In in Hj as [Hj Fj]. destruct (rp_members _ _ _ _ _ R j Hj) as (_ & _ & _ & _ & ->).
            apply feeds_iff in Fj as (Fj & _). rewrite (Hold j Hj); [reflexivity|congruence].
          * exists i. rewrite (feeds_old o i); [exact Hi|exact Ho|exact N|]. apply feeds_iff in Hi as (_ & _ & Hi). now apply (wf_ends _ W) in Hi.
        + intros n Hn Hk. assert (n <> c) as N by congruence. destruct (DD n Hn N) as (_ & _ & _ & _ & E1 & E2 & E3 & _). rewrite <- E1, <- E2, <- E3, <- Dy.
          apply (within_ext _ (fl' n)); [now apply Hold|]. apply (meets_storage _ _ _ M); [auto|]. now rewrite K0.
        + intros n Hn Hk. assert (n <> c) as N by congruence. destruct (DD n Hn N) as (_ & _ & _ & _ & E1 & E2 & E3 & E4). rewrite <- E1, <- E2, <- E3, <- E4, <- Dy.
          apply (within_ext _ (virtual_flow T fl' n)); [now apply members_same; auto|]. apply (meets_virtual _ _ _ M); [auto|]. now rewrite K0.
        + intros a m0 ms m g Ha Hk Hf Hm Hin. assert (a <> c) as N by congruence.
          destruct (rp_members _ _ _ _ _ R a Ha) as (E1 & _ & E2 & _). destruct (DD a Ha N) as (_ & _ & _ & E3 & _).
          rewrite <- (Q a m0 Ha Hk), <- (Q a m Ha Hk); [|rewrite Hm; right; eapply in_combine_l; eauto|rewrite Hm; now left].
          rewrite <- E3. rewrite <- E3 in Hin. apply (meets_factors _ _ _ M a m0 ms m g); [auto|now rewrite K0|congruence|congruence|exact Hin].
        + intros n Hn Hk. assert (n <> c) as N by congruence. destruct (DD n Hn N) as (_ & E1 & E2 & _). rewrite <- E1, <- E2.
          apply (within_ext _ (aggregated_flow T fl' n)); [now apply members_same; auto|]. apply (meets_agg _ _ _ M); [auto|]. now rewrite K0.
    Qed.

    Lemma cost_same : user_cost T d' fl' == user_cost S d fl.
    Proof.
      destruct fresh_facts as (F1 & F2 & F3 & F4 & N1 & N2 & N3 & N4 & N5 & N6 & N7 & N8 & N9 & N10).
      destruct (rp_kinds _ _ _ _ _ R) as (K0 & Kc & Kx & Kst & Kso & Ksi). destruct (rp_link _ _ _ _ _ R) as [L K].
      destruct (rp_slots _ _ _ _ _ R) as (L0 & Lx & Lst & Lso & Lsi). destruct (rp_link_data _ _ _ _ _ R) as (X1 & _). destruct (rp_store_data _ _ _ _ _ R) as (Y1 & _).
      unfold user_cost. rewrite (qsum_Permutation _ _ (Permutation_map _ (rp_nodes _ _ _ _ _ R))). cbn [map qsum].
      rewrite Lx, Lst, Lso, Lsi, Kx, Kst. cbn [is_flow_node is_input is_output is_link is_storage orb]. rewrite X1, Y1, Hlink.
      set (g := fun n => match s_slot S n with NoSlot => if is_flow_node (s_kind S n) || is_storage (s_kind S n) then d_cost d n * fl n else 0 | _ => 0 end).
      rewrite (qsum_map_ext _ (fun n => g n - bq (Nat.eqb c n) * (fun _ => d_cost d c * fl c) n) (s_nodes S)).
      2:{ intros n Hn. rewrite L0 by (intros ->; tauto). unfold g. destruct (Nat.eqb_spec c n) as [<-|N].
          - rewrite S_slot_link, Kc, K. cbn [is_flow_node is_input is_output is_link is_storage orb]. unfold bq. ring.
          - unfold bq. destruct (s_slot S n); try ring. rewrite K0 by congruence. destruct (is_flow_node (s_kind S n) || is_storage (s_kind S n)); [|ring].
            destruct (rp_data _ _ _ _ _ R n Hn (not_eq_sym N)) as (-> & _). rewrite Hold by congruence. ring. }
      rewrite qsum_map_minus, qsum_indicator by (try exact L; exact (wf_nodes _ W)). ring.
    Qed.
  End Flows.

  (** *** Answers of the edge solver *)
  Definition to_break (y : nat -> Q) (k : nat) : Q :=
    match nth_error (s_edges T) k with
    | None => 0
    | Some (u, v) => if Nat.eqb u si && Nat.eqb v x then outflow S y c
                     else edge_amount S y (if Nat.eqb u x then c else u) (if Nat.eqb v so then c else v)
    end.
  Definition of_break (y' : nat -> Q) (k : nat) : Q :=
    match nth_error (s_edges S) k with
    | None => 0
    | Some e => edge_amount T y' (fst (rerouted b e)) (snd (rerouted b e))
    end.

  Lemma to_break_carried y : carried y (to_break y).
  Proof.
    destruct fresh_facts as (F1 & F2 & F3 & F4 & N1 & N2 & N3 & N4 & N5 & N6 & N7 & N8 & N9 & N10).
    intros k k' [u v] Hk Hk'. unfold to_break. rewrite Hk'. destruct (wf_ends _ W _ _ (nth_error_In _ _ Hk)) as [A B]. unfold rerouted. cbn [fst snd].
    assert (Nat.eqb (if Nat.eqb u c then x else u) si = false) as ->.
    { destruct (Nat.eqb_spec u c); apply Nat.eqb_neq; [congruence|]. intros ->. tauto. }
    cbn [andb].
    assert ((if Nat.eqb (if Nat.eqb u c then x else u) x then c else if Nat.eqb u c then x else u) = u) as ->.
    { destruct (Nat.eqb_spec u c) as [->|]; [now rewrite Nat.eqb_refl|]. destruct (Nat.eqb_spec u x) as [->|]; tauto. }
    assert ((if Nat.eqb (if Nat.eqb v c then so else v) so then c else if Nat.eqb v c then so else v) = v) as ->.
    { destruct (Nat.eqb_spec v c) as [->|]; [now rewrite Nat.eqb_refl|]. destruct (Nat.eqb_spec v so) as [->|]; tauto. }
    apply amount_at; [exact (wf_edges _ W)|exact Hk].
  Qed.
  Lemma to_break_released y : released (to_break y) == outflow S y c.
  Proof.
    assert (In (si, x) (s_edges T)) as I by (apply T_edge; now left). apply In_nth_error in I as [k Hk].
    unfold released. rewrite (amount_at T _ k _ _ T_edges_NoDup Hk). unfold to_break. rewrite Hk, !Nat.eqb_refl. reflexivity.
  Qed.
  Lemma of_break_carried y' : carried (of_break y') y'.
  Proof.
    intros k k' e Hk Hk'. unfold of_break. rewrite Hk. symmetry. apply amount_at; [exact T_edges_NoDup|]. rewrite Hk'. now destruct (rerouted b e).
  Qed.

  Lemma carried_nonneg y y' : carried y y' ->
    ((forall k, (k < List.length (s_edges S))%nat -> 0 <= y k) /\ 0 <= released y' <-> (forall k, (k < List.length (s_edges T))%nat -> 0 <= y' k)).
  Proof.
    intros H. split.
    - intros [P Z] k Hk. apply nth_error_Some in Hk. destruct (nth_error (s_edges T) k) as [e|] eqn:E; [clear Hk|contradiction].
      pose proof (nth_error_In _ _ E) as I. apply T_edge in I as [->|[f [If ->]]].
      + rewrite <- (amount_at T y' k _ _ T_edges_NoDup E). exact Z.
      + apply In_nth_error in If as [j Hj]. rewrite (H j k f Hj E). apply P. apply nth_error_Some. congruence.
    - intros P. split.
      + intros k Hk. apply nth_error_Some in Hk. destruct (nth_error (s_edges S) k) as [e|] eqn:E; [clear Hk|contradiction].
        assert (In (rerouted b e) (s_edges T)) as I by (apply T_edge; right; exists e; split; [eapply nth_error_In; eauto|reflexivity]).
        apply In_nth_error in I as [j Hj]. rewrite <- (H k j e E Hj). apply P. apply nth_error_Some. congruence.
      + assert (In (si, x) (s_edges T)) as I by (apply T_edge; now left). apply In_nth_error in I as [k Hk].
        unfold released. rewrite (amount_at T _ k _ _ T_edges_NoDup Hk). apply P. apply nth_error_Some. congruence.
  Qed.
  Lemma outflow_nonneg y n : (forall k, (k < List.length (s_edges S))%nat -> 0 <= y k) -> 0 <= outflow S y n.
  Proof.
    intros P. unfold outflow, esum. apply qsum_map_nonneg. intros [k e] Hk. cbn [fst snd]. apply enumerate_In in Hk.
    assert (0 <= y k) by (apply P; apply nth_error_Some; congruence). destruct (same_domain S e && Nat.eqb (fst e) n); unfold bq; lra.
  Qed.

  Variables (triv triv' : bool) (E E' : lp).
  Hypothesis HE : eposed triv S d = Ok E.
  Hypothesis HE' : eposed triv' T d' = Ok E'.

  Lemma edge_pair y y' : carried y y' -> inner_only S y -> balanced T y' -> inflow S y c == outflow S y c ->
    (feasible E y <-> feasible E' y') /\ same_reports S b (ecommitted S y) (ecommitted T y') /\ objective E' y' == objective E y.
  Proof.
    intros H I B BS. pose proof (proj1 (carried_inner y y' H) I) as I'. pose proof (S_balanced y y' H B BS) as B'.
    pose proof (report_old y y' H I B BS) as R1. pose proof (report_link y y' H I B BS) as R2. pose proof (report_store y y' H I B BS) as R3.
    destruct (report_slots y y' H I B BS) as [R4 R5].
    split; [|split; [now apply reports_same|]].
    - rewrite (edge_meets triv S d E y C I S_apart HE), (edge_meets triv' T d' E' y' T_regular I' T_apart HE').
      rewrite <- (carried_nonneg y y' H). assert (released y' == outflow S y c) as Rl by now apply (balanced_iff y y' H).
      assert (0 <= outflow S y c -> 0 <= ecommitted S y c) as P.
      { rewrite (ecommitted_flow S y C I B'); [|apply (rp_link _ _ _ _ _ R)|now rewrite (proj2 (rp_link _ _ _ _ _ R))].
        unfold through. now rewrite (proj2 (rp_link _ _ _ _ _ R)). }
      split.
      + intros (P1 & _ & M). pose proof (outflow_nonneg y c P1) as Po. split; [split; [exact P1|now rewrite Rl]|]. split; [exact B|].
        apply (meets_iff _ _ R1 R2 R3); [rewrite R4; auto|rewrite R5; auto|exact M].
      + intros ([P1 P2] & _ & M). pose proof (outflow_nonneg y c P1) as Po. split; [exact P1|]. split; [exact B'|].
        apply (meets_iff _ _ R1 R2 R3); [rewrite R4; auto|rewrite R5; auto|exact M].
    - rewrite (edge_objective_user_cost triv S d E y C I HE), (edge_objective_user_cost triv' T d' E' y' T_regular I' HE'). now apply cost_same.
  Qed.

  Lemma edge_to_break y : feasible E y -> inner_only S y -> exists y', feasible E' y' /\ inner_only T y' /\
    same_reports S b (ecommitted S y) (ecommitted T y') /\ objective E' y' == objective E y.
  Proof.
    intros F I. exists (to_break y). pose proof (to_break_carried y) as H. pose proof (edge_balanced triv S d E y HE F) as Bs.
    destruct (rp_link _ _ _ _ _ R) as [L K].
    assert (balanced T (to_break y)) as B. { apply (balanced_iff y _ H). split; [intros n Hn _; now apply Bs|apply to_break_released]. }
    destruct (edge_pair y _ H I B (Bs c L K)) as (A1 & A2 & A3). split; [now apply A1|]. split; [now apply (carried_inner y _ H)|]. auto.
  Qed.
  Lemma edge_of_break y' : feasible E' y' -> inner_only T y' -> exists y, feasible E y /\ inner_only S y /\
    same_reports S b (ecommitted S y) (ecommitted T y') /\ objective E' y' == objective E y.
  Proof.
    intros F I'. exists (of_break y'). pose proof (of_break_carried y') as H. pose proof (edge_balanced triv' T d' E' y' HE' F) as B.
    pose proof (proj2 (carried_inner _ y' H) I') as I. destruct (rp_kinds _ _ _ _ _ R) as (K0 & Kc & Kx & Kst & Kso & Ksi).
    assert (inflow S (of_break y') c == outflow S (of_break y') c) as BS.
    { pose proof (proj1 (edge_meets triv' T d' E' y' T_regular I' T_apart HE') F) as (_ & _ & M).
      assert (In st (s_nodes T)) as Hst by (apply T_node; tauto). pose proof (meets_storage _ _ _ M st Hst Kst) as Ms.
      destruct (rp_store_data _ _ _ _ _ R) as (_ & Y2 & Y3). rewrite Y2, Y3 in Ms. unfold storage_bounds in Ms. change (qeqb 0 0) with true in Ms. cbn in Ms.
      rewrite (ecommitted_storage T y' T_regular I' B st Hst Kst) in Ms.
      destruct (rp_inputs _ _ _ _ _ R) as [_ Ri]. destruct (rp_outputs _ _ _ _ _ R) as [_ Ro]. rewrite Ri, Ro in Ms. cbn [map qsum] in Ms.
      rewrite (carried_in_so _ y' H), (carried_out_si _ y' H), (proj2 (proj1 (balanced_iff _ y' H) B)) in Ms. lra. }
    destruct (edge_pair _ y' H I B BS) as (A1 & A2 & A3). split; [now apply A1|]. auto.
  Qed.
End Break.

(** ** Answers of the route solver *)
Section Routes.
  Variables (S T : sys) (d d' : data) (b : breaklink).
  Hypothesis R : replaces S T d d' b.
  Notation c := (b_self b).
  Notation x := (b_link b).
  Notation st := (b_store b).
  Notation so := (b_out b).
  Notation si := (b_in b).

  Lemma T_steps u v : inner_edge T u v ->
    (u = si /\ v = x) \/ (u = x /\ v <> x /\ v <> si) \/ (v = so) \/ (u <> si /\ v <> x /\ v <> si /\ inner_edge S u v).
  Proof.
    destruct (fresh_facts S T d d' b R) as (F1 & F2 & F3 & F4 & N1 & N2 & N3 & N4 & N5 & N6 & N7 & N8 & N9 & N10).
    pose proof (reg_wf _ (rp_regular _ _ _ _ _ R)) as W.
    intros [H D]. apply (T_edge S T d d' b R) in H as [H|[[a1 b1] [H E]]]; [injection H as -> ->; tauto|].
    destruct (wf_ends _ W _ _ H) as [A B]. pose proof (T_same_domain S T d d' b R _ H) as SD. rewrite <- E in SD. unfold same_domain in SD. cbn [fst snd] in SD.
    rewrite D, Nat.eqb_refl in SD. symmetry in SD. apply Nat.eqb_eq in SD. unfold rerouted in E. cbn [fst snd] in E. injection E as -> ->.
    destruct (Nat.eqb_spec b1 c) as [->|Mb]; [now right; right; left|].
    assert (b1 <> x /\ b1 <> si) as [? ?] by (split; intros ->; tauto).
    destruct (Nat.eqb_spec a1 c) as [->|Ma]; [now right; left|]. do 3 right. split; [intros ->; tauto|]. split; [assumption|]. split; [assumption|]. now split.
  Qed.
  Lemma T_steps_so v : ~ inner_edge T so v.
  Proof.
    destruct (fresh_facts S T d d' b R) as (F1 & F2 & F3 & F4 & N1 & N2 & N3 & N4 & N5 & N6 & N7 & N8 & N9 & N10).
    destruct (rp_kinds _ _ _ _ _ R) as (K0 & Kc & Kx & Kst & Kso & Ksi). intros [H D].
    destruct (reg_clean _ (T_regular S T d d' b R) so v H D) as [_ K]. contradiction.
  Qed.
  Lemma T_plus u w : plus (inner_edge T) u w -> w <> so -> u <> x -> u <> si -> plus (inner_edge S) u w /\ w <> x /\ w <> si.
  Proof.
    induction 1 as [u w H|u v w H P IH]; intros Nw Nx Ni.
    - apply T_steps in H as [[-> _]|[[-> _]|[->|(A & B & D & E)]]]; try contradiction. split; [now constructor|]. auto.
    - apply T_steps in H as [[-> _]|[[-> _]|[->|(A & B & D & E)]]]; try contradiction.
      + exfalso. inversion P as [? ? Q|? ? ? Q]; subst; now apply T_steps_so in Q.
      + destruct (IH Nw B D) as [P' Q]. split; [|exact Q]. eapply plus_step; eauto.
  Qed.
  Lemma T_acyclic : ~ cyclic (inner_edge S) -> ~ cyclic (inner_edge T).
  Proof.
    destruct (fresh_facts S T d d' b R) as (F1 & F2 & F3 & F4 & N1 & N2 & N3 & N4 & N5 & N6 & N7 & N8 & N9 & N10).
    intros Ac [u H].
    assert (u <> so) as Nso. { intros ->. inversion H as [? ? Q|? ? ? Q]; subst; now apply T_steps_so in Q. }
    assert (forall v w, plus (inner_edge T) v w -> w <> si) as Nsi.
    { intros v w Q. induction Q as [v w Q|]; [|assumption]. intros ->.
      apply T_steps in Q as [[_ E]|[[_ [_ E]]|[E|(_ & _ & E & _)]]]; congruence. }
    assert (u <> si) as Ni by (eapply Nsi; eauto).
    destruct (Nat.eq_dec u x) as [->|Nx]; [|apply Ac; exists u; now apply T_plus].
    inversion H as [? ? Q|? v ? Q P]; subst.
    - apply T_steps in Q as [[E _]|[(_ & E & _)|[E|(_ & E & _)]]]; congruence.
    - assert (v <> x /\ v <> si) as [Vx Vi].
      { apply T_steps in Q as [[E _]|[(_ & E1 & E2)|[E|(_ & E1 & E2 & _)]]]; [congruence|tauto| |tauto]. subst v. split; congruence. }
      destruct (T_plus v x P N2 Vx Vi) as (_ & E & _). congruence.
  Qed.
  Lemma T_no_short : no_short_circuit S -> no_short_circuit T.
  Proof.
    destruct (fresh_facts S T d d' b R) as (F1 & F2 & F3 & F4 & N1 & N2 & N3 & N4 & N5 & N6 & N7 & N8 & N9 & N10).
    pose proof (reg_wf _ (rp_regular _ _ _ _ _ R)) as W. destruct (rp_link _ _ _ _ _ R) as [L K].
    destruct (rp_inputs _ _ _ _ _ R) as [I0 I1]. destruct (rp_outputs _ _ _ _ _ R) as [O0 O1].
    intros N p u v Hu Hv H. apply (T_edge S T d d' b R) in H as [H|[[a1 b1] [H E]]].
    - injection H as -> ->. destruct (Nat.eq_dec p st) as [->|Np]; [rewrite O1 in Hv; destruct Hv as [Hv|[]]; congruence|].
      rewrite O0 in Hv by exact Np. apply (wf_outputs_nodes _ W) in Hv. tauto.
    - destruct (wf_ends _ W _ _ H) as [A B]. destruct (Nat.eq_dec p st) as [->|Np].
      + rewrite I1 in Hu. destruct Hu as [<-|[]]. unfold rerouted in E. cbn [fst snd] in E. injection E as E _. destruct (Nat.eqb_spec a1 c); [congruence|subst; tauto].
      + rewrite I0 in Hu by exact Np. rewrite O0 in Hv by exact Np. destruct (wf_inputs_nodes _ W u p Hu) as (U1 & U2 & _). destruct (wf_outputs_nodes _ W v p Hv) as (V1 & V2 & _).
        unfold rerouted in E. cbn [fst snd] in E. injection E as -> ->.
        destruct (Nat.eqb_spec a1 c) as [E1|E1]; [tauto|]. destruct (Nat.eqb_spec b1 c) as [E2|E2]; [tauto|]. exact (N p a1 b1 Hu Hv H).
  Qed.

  Variables (triv triv' : bool) (P P' : lp).
  Hypothesis CS : comparable triv S.
  Hypothesis CT : comparable triv' T.
  Hypothesis Ac : ~ cyclic (inner_edge S).
  Hypothesis NS : no_short_circuit S.
  Hypothesis HP : posed triv S d = Ok P.
  Hypothesis HP' : posed triv' T d' = Ok P'.
  Definition tellable (U : sys) (t : bool) (e : data) : Prop := forall r, In r (routes t U) -> path_cost U e r == 0 \/ eps8 <= qabs (path_cost U e r).

  Lemma same_reports_trans fl gl fl' gl' : (forall n, fl n == gl n) -> (forall n, fl' n == gl' n) -> same_reports S b fl fl' -> same_reports S b gl gl'.
  Proof.
    intros A B H n Hn. specialize (H n Hn). unfold reported in *. destruct (Nat.eqb n c); [now rewrite <- (A n), <- H, (B n), (B x)|now rewrite <- (A n), <- H, (B n)].
  Qed.

  Lemma route_to_break z : feasible P z -> exists z', feasible P' z' /\ same_reports S b (committed triv S z) (committed triv' T z') /\
    (tellable S triv d -> tellable T triv' d' -> objective P' z' == objective P z).
  Proof.
    intros F. destruct (eposed_total triv S d P CS Ac NS HP) as [E HE]. destruct (eposed_total triv' T d' P' CT (T_acyclic Ac) (T_no_short NS) HP') as [E' HE'].
    destruct (route_to_edge triv S d P E z CS Ac HP HE F) as [Fy [I Hn]].
    destruct (edge_to_break S T d d' b R triv triv' E E' HE HE' _ Fy I) as (y' & Fy' & I' & Rs & Ho).
    destruct (edge_to_route triv' T d' P' E' y' CT (T_acyclic Ac) HP' HE' Fy' I') as [z' [Fz' [_ Hz']]].
    exists z'. split; [exact Fz'|]. split.
    - apply (same_reports_trans (ecommitted S (edges_of triv S z)) _ (ecommitted T y')); [exact Hn|intros n; symmetry; apply Hz'|exact Rs].
    - intros C1 C2. rewrite (same_objective triv' T d' P' E' CT HP' HE' C2 z' y' I' Hz'), Ho.
      symmetry. apply (same_objective triv S d P E CS HP HE C1); [exact I|]. intros n. symmetry. apply Hn.
  Qed.
  Lemma route_of_break z' : feasible P' z' -> exists z, feasible P z /\ same_reports S b (committed triv S z) (committed triv' T z') /\
    (tellable S triv d -> tellable T triv' d' -> objective P' z' == objective P z).
  Proof.
    intros F. destruct (eposed_total triv S d P CS Ac NS HP) as [E HE]. destruct (eposed_total triv' T d' P' CT (T_acyclic Ac) (T_no_short NS) HP') as [E' HE'].
    destruct (route_to_edge triv' T d' P' E' z' CT (T_acyclic Ac) HP' HE' F) as [Fy [I Hn]].
    destruct (edge_of_break S T d d' b R triv triv' E E' HE HE' _ Fy I) as (y & Fy' & I' & Rs & Ho).
    destruct (edge_to_route triv S d P E y CS Ac HP HE Fy' I') as [z [Fz [_ Hz]]].
    exists z. split; [exact Fz|]. split.
    - apply (same_reports_trans (ecommitted S y) _ (ecommitted T (edges_of triv' T z'))); [intros n; symmetry; apply Hz|exact Hn|exact Rs].
    - intros C1 C2. rewrite (same_objective triv S d P E CS HP HE C1 z y I' Hz), <- Ho.
      apply (same_objective triv' T d' P' E' CT HP' HE' C2); [exact I|]. intros n. symmetry. apply Hn.
  Qed.
End Routes.

(** ** Connecting *)
Section Building.
  Variable b : breaklink.
  Notation c := (b_self b).
  Notation x := (b_link b).
  Notation st := (b_store b).
  Notation so := (b_out b).
  Notation si := (b_in b).
  Hypothesis D : NoDup [c; x; st; so; si].

  (** [w1] has the Link and [w2] the BreakLink. *)
  Record paired (w1 w2 : world) : Prop := {
    pw_model : model_of w2 = model_of w1;
    pw_link : kind_of w1 c = Plain;
    pw_break : kind_of w2 c = Through x so;
    pw_kinds : forall n, n <> c -> ~ inside b n -> kind_of w2 n = kind_of w1 n;
    pw_others : forall n s a, n <> c -> ~ inside b n -> source (kind_of w1 n) n s a \/ target (kind_of w1 n) n s a -> a <> c /\ ~ inside b a;
    pw_out : forall u v, In (u, v) (edges w1) -> ~ inside b u /\ ~ inside b v;
    pw_edges : Permutation (edges w2) ((si, x) :: map (rerouted b) (edges w1))
  }.

  Lemma reroute_once e f : ~ inside b (fst e) -> ~ inside b (snd e) -> ~ inside b (fst f) -> ~ inside b (snd f) -> rerouted b e = rerouted b f -> e = f.
  Proof.
    unfold inside, rerouted. destruct e as [e1 e2], f as [f1 f2]. cbn [fst snd]. intros A1 A2 B1 B2 E. injection E as E1 E2. f_equal.
    - destruct (Nat.eqb_spec e1 c), (Nat.eqb_spec f1 c); subst; try reflexivity; tauto.
    - destruct (Nat.eqb_spec e2 c), (Nat.eqb_spec f2 c); subst; try reflexivity; tauto.
  Qed.
  Lemma reroute_new e : ~ inside b (fst e) -> rerouted b e <> (si, x).
  Proof.
    unfold inside, rerouted. destruct e as [e1 e2]. cbn [fst snd]. intros A E. injection E as E1 E2. destruct (Nat.eqb_spec e1 c); [|subst; tauto].
    apply NoDup_cons_iff in D as [_ D']. apply NoDup_cons_iff in D' as [D' _]. cbn [In] in D'. apply D'. rewrite E1. tauto.
  Qed.

  Lemma add_edge_edges w e : edges (add_edge w e) = if has_edge w e then edges w else edges w ++ [e].
  Proof. unfold add_edge. now destruct (has_edge w e). Qed.

  Lemma paired_add w1 w2 u v : paired w1 w2 -> ~ inside b u -> ~ inside b v ->
    paired (add_edge w1 (u, v)) (add_edge w2 (rerouted b (u, v))).
  Proof.
    intros [M L B K O Ou Pe] Hu Hv.
    assert (has_edge w2 (rerouted b (u, v)) = has_edge w1 (u, v)) as HE.
    { apply eq_true_iff_eq. destruct (has_edge_spec w2 (rerouted b (u, v))) as [A|A], (has_edge_spec w1 (u, v)) as [A'|A']; try tauto; exfalso.
      - apply (Permutation_in _ Pe) in A. destruct A as [A|A]; [now apply (reroute_new (u, v) Hu)|].
        apply in_map_iff in A as [f [E A]]. destruct f as [f1 f2]. destruct (Ou f1 f2 A) as [O1 O2].
        apply (reroute_once (f1, f2) (u, v)) in E; auto. congruence.
      - apply A, (Permutation_in _ (Permutation_sym Pe)). right. now apply in_map. }
    destruct (add_edge_same w1 (u, v)) as [[S1 S2] _]. destruct (add_edge_same w2 (rerouted b (u, v))) as [[S3 S4] _].
    split; rewrite ?S1, ?S2, ?S3, ?S4; try assumption.
    - intros u' v' H. apply add_edge_in in H as [H|H]; [now apply Ou|]. injection H as -> ->. auto.
    - rewrite !add_edge_edges, HE. destruct (has_edge w1 (u, v)); [exact Pe|]. rewrite map_app. cbn [map].
      change ((si, x) :: map (rerouted b) (edges w1) ++ [rerouted b (u, v)]) with (((si, x) :: map (rerouted b) (edges w1)) ++ [rerouted b (u, v)]).
      now apply Permutation_app_tail.
  Qed.
  Lemma paired_dirty w1 w2 m : paired w1 w2 -> paired (set_dirty w1 m) (set_dirty w2 m).
  Proof. intros [M L B K O Ou Pe]. split; assumption. Qed.

  Lemma slot_source n w1 w2 s : paired w1 w2 -> ~ inside b n -> (n = c -> s = None) ->
    match iter_slots (kind_of w1 n) n s true with
    | Some [a] => iter_slots (kind_of w2 n) n s true = Some [if Nat.eqb a c then x else a] /\ ~ inside b a
    | Some _ => False
    | None => iter_slots (kind_of w2 n) n s true = None
    end.
  Proof.
    intros PW Hi Hs. destruct (Nat.eq_dec n c) as [->|N].
    - rewrite (pw_link _ _ PW), (pw_break _ _ PW), Hs by reflexivity. cbn [iter_slots]. rewrite Nat.eqb_refl. auto.
    - rewrite (pw_kinds _ _ PW n N Hi). destruct (iter_slots (kind_of w1 n) n s true) as [l|] eqn:E; [|reflexivity].
      apply iter_slots_source in E as [a [-> Ha]]. destruct (pw_others _ _ PW n s a N Hi (or_introl Ha)) as [Nc Ni].
      now rewrite (proj2 (Nat.eqb_neq a c) Nc).
  Qed.
  Lemma slot_target n w1 w2 s : paired w1 w2 -> ~ inside b n -> (n = c -> s = None) ->
    match iter_slots (kind_of w1 n) n s false with
    | Some [a] => iter_slots (kind_of w2 n) n s false = Some [if Nat.eqb a c then so else a] /\ ~ inside b a
    | Some _ => False
    | None => iter_slots (kind_of w2 n) n s false = None
    end.
  Proof.
    intros PW Hi Hs. destruct (Nat.eq_dec n c) as [->|N].
    - rewrite (pw_link _ _ PW), (pw_break _ _ PW), Hs by reflexivity. cbn [iter_slots]. rewrite Nat.eqb_refl. auto.
    - rewrite (pw_kinds _ _ PW n N Hi). destruct (iter_slots (kind_of w1 n) n s false) as [l|] eqn:E; [|reflexivity].
      apply iter_slots_target in E as [a [-> Ha]]. destruct (pw_others _ _ PW n s a N Hi (or_intror Ha)) as [Nc Ni].
      now rewrite (proj2 (Nat.eqb_neq a c) Nc).
  Qed.

  Lemma connect_unfold w u v f t : connect w u v f t =
    match iter_slots (kind_of w u) u f true, iter_slots (kind_of w v) v t false with
    | Some l1, Some l2 => if Nat.eqb (model_of w u) (model_of w v)
        then Returned (set_dirty (fold_left (fun w a => fold_left (fun w b => add_edge w (a, b)) l2 w) l1 w) (model_of w u)) else Raised w
    | _, _ => Raised w
    end.
  Proof.
    unfold connect. destruct (kind_of w u) eqn:Ku, (kind_of w v) eqn:Kv; cbn [iter_slots];
      destruct (Nat.eqb (model_of w u) (model_of w v)); cbn [negb]; try reflexivity;
      repeat match goal with |- context [match ?z with _ => _ end] => destruct z; try reflexivity end.
  Qed.

  Lemma paired_step w1 w2 o : paired w1 w2 -> plain_call b o -> paired (left_by (step w1 o)) (left_by (step w2 o)).
  Proof.
    intros PW HO. destruct o as [u v f t|]; [|contradiction]. destruct HO as (Hu & Hv & Hf & Ht). cbn [step]. rewrite !connect_unfold.
    pose proof (slot_source u w1 w2 f PW Hu Hf) as A. pose proof (slot_target v w1 w2 t PW Hv Ht) as B.
    destruct (iter_slots (kind_of w1 u) u f true) as [[|a [|]]|]; try contradiction; [|rewrite A; exact PW].
    destruct A as [-> A]. destruct (iter_slots (kind_of w1 v) v t false) as [[|e [|]]|]; try contradiction; [|rewrite B; exact PW].
    destruct B as [-> B]. rewrite (pw_model _ _ PW). destruct (Nat.eqb (model_of w1 u) (model_of w1 v)); [|exact PW].
    cbn [fold_left left_by]. apply paired_dirty. exact (paired_add w1 w2 a e PW A B).
  Qed.
  Lemma paired_perform ops : forall w1 w2, paired w1 w2 -> (forall o, In o ops -> plain_call b o) -> paired (perform w1 ops) (perform w2 ops).
  Proof.
    induction ops as [|o ops IH]; intros w1 w2 PW H; [exact PW|]. apply (IH (left_by (step w1 o)) (left_by (step w2 o))).
    - apply paired_step; [exact PW|]. apply H. now left.
    - intros o' Ho'. apply H. now right.
  Qed.
End Building.

Lemma paired_new w b : NoDup [b_self b; b_link b; b_store b; b_out b; b_in b] ->
  (forall u v, In (u, v) (edges w) -> u <> b_self b /\ v <> b_self b /\ ~ inside b u /\ ~ inside b v) ->
  (forall n s a, n <> b_self b -> ~ inside b n -> source (kind_of w n) n s a \/ target (kind_of w n) n s a -> a <> b_self b /\ ~ inside b a) ->
  paired b (new_link w (b_self b)) (new_breaklink w b).
Proof.
  intros D New Oth. unfold new_breaklink. set (w0 := World _ _ _ _). destruct (add_edge_same w0 (b_in b, b_link b)) as [[S1 S2] _].
  split; rewrite ?S1, ?S2.
  - reflexivity.
  - cbn. now rewrite Nat.eqb_refl.
  - cbn. now rewrite Nat.eqb_refl.
  - intros n N Hi. unfold inside in Hi. cbn. rewrite (proj2 (Nat.eqb_neq n (b_self b)) N).
    destruct (Nat.eqb_spec n (b_link b)); [tauto|]. destruct (Nat.eqb_spec n (b_store b)); [tauto|].
    destruct (Nat.eqb_spec n (b_out b)); [tauto|]. destruct (Nat.eqb_spec n (b_in b)); [tauto|]. reflexivity.
  - intros n s a N Hi. cbn. rewrite (proj2 (Nat.eqb_neq n (b_self b)) N). now apply Oth.
  - intros u v H. cbn in H. destruct (New u v H) as (_ & _ & A). exact A.
  - rewrite add_edge_edges. destruct (has_edge_spec w0 (b_in b, b_link b)) as [A|_].
    + exfalso. destruct (New _ _ A) as (_ & _ & B & _). apply B. unfold inside. tauto.
    + cbn. assert (map (rerouted b) (edges w) = edges w) as ->.
      { rewrite <- (map_id (edges w)) at 2. apply map_ext_in. intros [u v] H. destruct (New u v H) as (A & B & _). unfold rerouted. cbn [fst snd].
        now rewrite (proj2 (Nat.eqb_neq u (b_self b)) A), (proj2 (Nat.eqb_neq v (b_self b)) B). }
      apply Permutation_sym, Permutation_cons_append.
Qed.
