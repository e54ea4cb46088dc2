(** Lemmas for C82. *)
From Verif Require Import Base Ring LP_model Sys_model RouteLP_model RouteLP_spec RouteLP_proofs RouteLP_flow
  Buffers_model Buffers_proofs Delay_model.
Open Scope Q_scope.

Lemma fixed_flow triv S d x i v : wf_sys S -> solved triv S d x -> In i (s_nodes S) -> s_kind S i = KInput ->
  d_min d i = Fin v -> d_max d i = Fin v -> committed triv S x i == round8 v.
Proof.
  intros W [P [HP HF]] Hi Hk E1 E2.
  pose proof (flow_row triv S d P x i W HP HF Hi ltac:(rewrite Hk; reflexivity)) as H. rewrite E1, E2 in H.
  unfold flow_bounds in H. cbn [eround8] in H. unfold constraint_type in H. cbn [near] in H.
  assert (qltb (qabs (round8 v - round8 v)) eps8 = true) as T.
  { destruct (qltbP (qabs (round8 v - round8 v)) eps8) as [A|A]; [reflexivity|]. exfalso.
    setoid_replace (round8 v - round8 v) with 0 in A by ring. vm_compute in A. apply A. reflexivity. }
  rewrite T in H. exact H.
Qed.

Lemma upd_sum (l : list Q) : forall p v, (p < length l)%nat -> qsum (upd l p v) == qsum l - nth p l 0 + v.
Proof.
  induction l as [|a l IH]; intros [|p] v H; cbn [length] in H; [lia|lia| |].
  - cbn [upd qsum nth]. ring.
  - cbn [upd qsum nth]. rewrite IH by lia. ring.
Qed.

Lemma round8_near v : v - eps8 <= round8 v <= v + eps8.
Proof.
  unfold round8. destruct (qltbP (qabs v) eps8) as [H|H]; [|unfold eps8; split; lra].
  unfold qabs in H. qif_in H; unfold eps8 in *; split; lra.
Qed.

Lemma after_pos n s f : (1 <= n)%nat -> (b_pos s < n)%nat -> (b_pos (delay_after n s f) < n)%nat.
Proof.
  intros Hn Hp. unfold delay_after. cbn [b_pos]. destruct (Nat.ltb_spec 1 n); [|exact Hp].
  apply Nat.mod_upper_bound. lia.
Qed.
Lemma after_length n s f : length (b_mem (delay_after n s f)) = length (b_mem s).
Proof. unfold delay_after. cbn [b_mem]. apply upd_length. Qed.

Section Run.
  Context (triv : bool) (S : sys) (o i n : nat) (W : wf_sys S) (Hi : In i (s_nodes S)) (Hk : s_kind S i = KInput)
    (Hn : (1 <= n)%nat).

  Lemma run_step st s r : delay_node_run triv S o i n s (st :: r) ->
    flow_at triv S i st == round8 (delay_value s) /\
    delay_node_run triv S o i n (delay_after n s (flow_at triv S o st)) r.
  Proof.
    cbn [delay_node_run]. intros [H1 [H2 [H3 H4]]]. split; [|exact H4].
    exact (fixed_flow triv S (fst st) (snd st) i (delay_value s) W H1 Hi Hk H2 H3).
  Qed.

  Lemma run_values steps : forall s, delay_node_run triv S o i n s steps -> forall t st, nth_error steps t = Some st ->
    exists v, nth_error (fst (delay_run n s (map (flow_at triv S o) steps))) t = Some v /\
    flow_at triv S i st == round8 v.
  Proof.
    induction steps as [|a r IH]; intros s H t st Ht; [destruct t; discriminate|].
    apply run_step in H as [H1 H2]. cbn [map delay_run].
    specialize (IH _ H2). destruct (delay_run n (delay_after n s (flow_at triv S o a)) (map (flow_at triv S o) r)) as [vs s'].
    cbn [fst] in *. destruct t as [|t].
    - injection Ht as ->. exists (delay_value s). split; [reflexivity|exact H1].
    - apply (IH t st Ht).
  Qed.

  Lemma run_conserved (days : step -> Q) (D : Q) : 0 <= D -> (forall st, days st == D) -> forall steps s,
    length (b_mem s) = n -> (b_pos s < n)%nat ->
    delay_node_run triv S o i n s steps ->
    let given := qsum (map (fun st => flow_at triv S i st * days st) steps) in
    let taken := qsum (map (fun st => flow_at triv S o st * days st) steps) in
    let before := qsum (b_mem s) * D in
    let left := qsum (b_mem (delay_node_end triv S o n s steps)) * D in
    let slack := inject_Z (Z.of_nat (length steps)) * (eps8 * D) in
    before + taken - slack <= given + left /\ given + left <= before + taken + slack.
  Proof.
    intros HD Hd. induction steps as [|st r IH]; intros s Hl Hp H; cbv zeta.
    - cbn [map qsum delay_node_end fold_left length]. change (inject_Z (Z.of_nat 0)) with 0. split; lra.
    - apply run_step in H as [H1 H2].
      specialize (IH (delay_after n s (flow_at triv S o st))). rewrite after_length in IH.
      specialize (IH Hl (after_pos n s _ Hn Hp) H2). cbv zeta in IH. destruct IH as [IH1 IH2].
      unfold delay_node_end in *. cbn [fold_left map qsum length].
      assert (qsum (b_mem (delay_after n s (flow_at triv S o st))) == qsum (b_mem s) - delay_value s + flow_at triv S o st) as E.
      { unfold delay_after. cbn [b_mem]. rewrite upd_sum by lia. reflexivity. }
      rewrite E in IH1, IH2.
      replace (inject_Z (Z.of_nat (Datatypes.S (length r)))) with (inject_Z (Z.of_nat (length r) + 1)) by (f_equal; lia).
      rewrite inject_Z_plus. change (inject_Z 1) with 1.
      pose proof (round8_near (delay_value s)) as [R1 R2]. rewrite <- H1 in R1, R2. rewrite (Hd st).
      set (A := flow_at triv S i st) in *. set (B := flow_at triv S o st) in *. set (V := delay_value s) in *.
      set (G := qsum (map (fun st => flow_at triv S i st * days st) r)) in *.
      set (T := qsum (map (fun st => flow_at triv S o st * days st) r)) in *.
      set (L := qsum (b_mem (fold_left _ r _)) * D) in *. set (M := qsum (b_mem s)) in *.
      assert ((V - eps8) * D <= A * D) as Q1 by (apply Qmult_le_compat_r; assumption).
      assert (A * D <= (V + eps8) * D) as Q2 by (apply Qmult_le_compat_r; assumption).
      split; nra.
  Qed.

  Definition no_trace (v : Q) : Prop := v == 0 \/ eps8 <= qabs v.
  Lemma no_trace_round v : no_trace v -> round8 v == v.
  Proof.
    intros [H|H]; unfold round8.
    - destruct (qltb (qabs v) eps8); [symmetry; exact H|reflexivity].
    - destruct (qltbP (qabs v) eps8) as [A|A]; [|reflexivity]. exfalso. lra.
  Qed.

  Lemma run_exact steps : forall s, length (b_mem s) = n -> (b_pos s < n)%nat ->
    Forall no_trace (b_mem s) -> Forall (fun st => no_trace (flow_at triv S o st)) steps ->
    delay_node_run triv S o i n s steps ->
    qsum (map (flow_at triv S i) steps) + qsum (b_mem (delay_node_end triv S o n s steps)) ==
    qsum (b_mem s) + qsum (map (flow_at triv S o) steps).
  Proof.
    induction steps as [|st r IH]; intros s Hl Hp HM HF H.
    - cbn [map qsum delay_node_end fold_left]. ring.
    - apply run_step in H as [H1 H2]. inversion HF as [|? ? F1 F2]; subst.
      assert (no_trace (delay_value s)) as NV.
      { rewrite Forall_forall in HM. apply HM. unfold delay_value. apply nth_In. lia. }
      rewrite (no_trace_round _ NV) in H1.
      specialize (IH (delay_after (length (b_mem s)) s (flow_at triv S o st))). rewrite after_length in IH.
      specialize (IH eq_refl (after_pos _ s _ Hn Hp)).
      unfold delay_node_end in *. cbn [fold_left map qsum]. rewrite H1.
      assert (qsum (b_mem (delay_after (length (b_mem s)) s (flow_at triv S o st))) == qsum (b_mem s) - delay_value s + flow_at triv S o st) as E.
      { unfold delay_after. cbn [b_mem]. rewrite upd_sum by lia. reflexivity. }
      rewrite E in IH. setoid_rewrite <- (Qplus_assoc (delay_value s)). rewrite IH; [ring| |exact F2|exact H2].
      apply Forall_forall. intros v Hv. unfold delay_after in Hv. cbn [b_mem] in Hv.
      apply In_nth with (d := 0) in Hv as [k [K1 K2]]. rewrite upd_length in K1. rewrite nth_upd in K2 by lia.
      rewrite Forall_forall in HM.
      destruct (Nat.eqb k (b_pos s)); [now rewrite <- K2|]. rewrite <- K2. apply HM. now apply nth_In.
  Qed.
End Run.
