(** Boolean tests used by the examples of EdgeLP_props.v. *)
From Verif Require Import Base Paths Routes_model LP_model Sys_model RouteLP_model RouteLP_spec RouteLP_proofs LP_check EdgeLP_model EdgeLP_spec.
Open Scope Q_scope.

Lemma ranked_acyclic {A} (E : A -> A -> Prop) (rank : A -> nat) : (forall a b, E a b -> (rank a < rank b)%nat) -> ~ cyclic E.
Proof.
  intros H [x P]. assert (forall a b, plus E a b -> (rank a < rank b)%nat) as K; [|specialize (K _ _ P); lia].
  intros a b Q. induction Q; [auto|]. match goal with K : E _ _ |- _ => apply H in K end. lia.
Qed.

Definition ranked (S : sys) (rank : nat -> nat) : bool :=
  forallb (fun e => negb (same_domain S e) || Nat.ltb (rank (fst e)) (rank (snd e))) (s_edges S).
Lemma ranked_sound S rank : ranked S rank = true -> ~ cyclic (inner_edge S).
Proof.
  intros H. apply (ranked_acyclic _ rank). intros a b [H1 H2]. unfold ranked in H. rewrite forallb_forall in H.
  specialize (H _ H1). unfold same_domain in H. cbn [fst snd] in H. rewrite H2, Nat.eqb_refl in H. cbn in H. now apply Nat.ltb_lt.
Qed.

Lemma filter_le1 {A} (p : A -> bool) l : (length (filter p l) <= 1)%nat -> forall i j a b,
  nth_error l i = Some a -> nth_error l j = Some b -> p a = true -> p b = true -> i = j.
Proof.
  induction l as [|c l IH]; intros H i j a b Hi Hj Ha Hb; [destruct i; discriminate|].
  cbn [filter] in H. destruct (p c) eqn:E.
  - cbn [length] in H. assert (filter p l = []) as N by (destruct (filter p l); [reflexivity|cbn in H; lia]).
    assert (forall k x, nth_error l k = Some x -> p x = true -> False) as K.
    { intros k x Hk Hx. apply nth_error_In in Hk. assert (In x (filter p l)) as F by now apply filter_In. rewrite N in F. contradiction. }
    destruct i as [|i], j as [|j]; cbn in Hi, Hj; [reflexivity|exfalso; eauto|exfalso; eauto|exfalso; eauto].
  - destruct i as [|i]; cbn in Hi; [congruence|]. destruct j as [|j]; cbn in Hj; [congruence|]. f_equal. eauto.
Qed.

Definition regular_check (S : sys) : bool :=
  forallb (fun e => negb (same_domain S e) || (negb (is_input (s_kind S (snd e))) && negb (is_output (s_kind S (fst e))))) (s_edges S) &&
  forallb (fun e => is_flow_node (s_kind S (fst e)) && is_flow_node (s_kind S (snd e))) (s_edges S) &&
  forallb (fun a => negb (is_aggregated (s_kind S a) || is_virtual (s_kind S a)) ||
     forallb (fun m => memb m (s_nodes S) && is_flow_node (s_kind S m)) (s_members S a)) (s_nodes S) &&
  forallb (fun a => negb (is_aggregated (s_kind S a)) || Nat.eqb (length (weights_of S a)) (length (s_members S a))) (s_nodes S).

Definition comparable_check (triv : bool) (S : sys) : bool :=
  regular_check S &&
  forallb (fun v => negb (is_virtual (s_kind S v)) ||
     (nodupb (s_members S v) && Nat.eqb (length (s_vfactors S v)) (length (s_members S v)))) (s_nodes S) &&
  forallb (fun a => negb (is_aggregated (s_kind S a)) ||
     forallb (fun r => Nat.leb (length (filter (fun m => memb m r) (s_members S a))) 1) (routes triv S)) (s_nodes S).

Lemma regular_check_sound S : wf_sys S -> regular_check S = true -> regular S.
Proof.
  intros W H. unfold regular_check in H. rewrite !andb_true_iff, !forallb_forall in H. destruct H as [[[H1 H2] H3] H4].
  constructor; [exact W|..].
  - intros a b He Hd. specialize (H1 _ He). unfold same_domain in H1. cbn [fst snd] in H1. rewrite Hd, Nat.eqb_refl in H1. cbn in H1.
    destruct (s_kind S a), (s_kind S b); try discriminate H1; split; discriminate.
  - intros a b He. specialize (H2 _ He). cbn in H2. now apply andb_true_iff in H2.
  - intros a m Ha Hk Hm. specialize (H3 _ Ha). assert (is_aggregated (s_kind S a) || is_virtual (s_kind S a) = true) as E
      by (destruct Hk as [->| ->]; reflexivity). rewrite E in H3. cbn in H3. rewrite forallb_forall in H3. specialize (H3 _ Hm).
    apply andb_true_iff in H3 as [H5 H6]. split; [|exact H6]. destruct (membP m (s_nodes S)); [assumption|discriminate].
  - intros a Ha Hk. specialize (H4 _ Ha). rewrite Hk in H4. cbn in H4. now apply Nat.eqb_eq.
Qed.

Lemma comparable_check_sound triv S : wf_sys S -> comparable_check triv S = true -> comparable triv S.
Proof.
  intros W H. unfold comparable_check in H. rewrite !andb_true_iff, !forallb_forall in H. destruct H as [[H1 H2] H3].
  constructor.
  - now apply regular_check_sound.
  - intros v Hv Hk. specialize (H2 _ Hv). rewrite Hk in H2. cbn in H2. apply andb_true_iff in H2 as [H4 H5].
    split; [now apply nodupb_NoDup|now apply Nat.eqb_eq].
  - intros a r Ha Hk Hr. specialize (H3 _ Ha). rewrite Hk in H3. cbn in H3. rewrite forallb_forall in H3. specialize (H3 _ Hr).
    apply Nat.leb_le in H3. intros i j u v Hi Hj Hu Hv. eapply (filter_le1 _ _ H3); eauto.
    + destruct (membP u r); [reflexivity|contradiction].
    + destruct (membP v r); [reflexivity|contradiction].
Qed.

Definition edge_check (triv : bool) (S : sys) (d : data) (y : nat -> Q) : bool :=
  match eposed triv S d with Ok E => feasible_check E y | Err _ => false end.
Lemma edge_check_sound triv S d y : edge_check triv S d y = true -> edge_solved triv S d y.
Proof.
  unfold edge_check. destruct (eposed triv S d) as [E|] eqn:EE; [|discriminate]. intros H. exists E. split; [exact EE|].
  now apply feasible_check_sound.
Qed.
