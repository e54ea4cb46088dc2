From Verif Require Import Base Polynomial_model Polynomial_spec.
Local Open Scope Q_scope.
Local Open Scope list_scope.

Lemma fold_plus (f : nat -> Q) l : forall a, fold_left (fun y i => y + f i) l a == a + qsum (map f l).
Proof. induction l; intros b; simpl. - lra. - rewrite IHl. lra. Qed.
Lemma power_add x i j : power x (i + j) == power x i * power x j.
Proof. induction i; simpl. - lra. - rewrite IHi. lra. Qed.
Lemma horner_sum x : forall cs k, qsum (map (fun i => nth (i - k) cs 0 * power x i) (seq k (length cs))) == power x k * horner x cs.
Proof.
  induction cs as [|c r IH]; intros k; simpl. - lra.
  - rewrite Nat.sub_diag. rewrite (qsum_map_ext _ (fun i => nth (i - S k) r 0 * power x i)).
    + rewrite IH. simpl. lra.
    + intros i Hi. apply in_seq in Hi. destruct (i - k)%nat eqn:E; [lia|]. replace (i - S k)%nat with n by lia. reflexivity.
Qed.
Lemma poly1_horner cs x : poly1 cs x == horner x cs.
Proof.
  unfold poly1. rewrite (fold_plus (fun i => nth i cs 0 * power x i)).
  pose proof (horner_sum x cs 0) as H. simpl in H.
  rewrite (qsum_map_ext _ (fun i => nth (i - 0) cs 0 * power x i)).
  - rewrite H. lra.
  - intros i _. rewrite Nat.sub_0_r. reflexivity.
Qed.
Lemma rectangular_row cs i : rectangular cs = true -> (i < length cs)%nat -> length (nth i cs []) = ncols cs.
Proof.
  destruct cs as [|r rs]; simpl; [lia|]. rewrite forallb_forall. intros H Hi. destruct i; [reflexivity|].
  assert (In (nth i rs []) rs) by (apply nth_In; lia). specialize (H _ H0). now apply Nat.eqb_eq in H.
Qed.
Lemma fold_rows (g : nat -> nat -> Q) n l : forall a,
  fold_left (fun z i => fold_left (fun z j => z + g i j) (seq 0 n) z) l a == a + qsum (map (fun i => qsum (map (g i) (seq 0 n))) l).
Proof. induction l as [|i l IH]; intros b; simpl. - lra. - rewrite IH, fold_plus. lra. Qed.
Lemma poly2_horner cs x y : rectangular cs = true -> poly2 cs x y == horner x (map (horner y) cs).
Proof.
  intros R. unfold poly2. rewrite (fold_rows (fun i j => nth j (nth i cs []) 0 * power x i * power y j)).
  pose proof (horner_sum x (map (horner y) cs) 0) as H. cbn [power] in H. rewrite map_length in H.
  rewrite (qsum_map_ext _ (fun i => nth (i - 0) (map (horner y) cs) 0 * power x i)).
  - rewrite H. lra.
  - intros i Hi. apply in_seq in Hi. rewrite Nat.sub_0_r.
    rewrite (nth_indep _ _ (horner y [])) by (rewrite map_length; lia). rewrite map_nth.
    rewrite (qsum_map_ext _ (fun j => power x i * (nth j (nth i cs []) 0 * power y j))) by (intros; lra).
    rewrite qsum_map_scale.
    pose proof (horner_sum y (nth i cs []) 0) as H2. cbn [power] in H2. rewrite (rectangular_row cs i R) in H2 by lia.
    rewrite (qsum_map_ext _ (fun j => nth (j - 0) (nth i cs []) 0 * power y j)).
    + rewrite H2. lra.
    + intros j _. rewrite Nat.sub_0_r. reflexivity.
Qed.
Lemma run1_node cs scale offset : forall flows n t, (t < length flows)%nat ->
  exists v, nth_error (run1 OfNode cs scale offset n flows) t = Some (Some v) /\ v == horner offset cs.
Proof.
  induction flows as [|f r IH]; intros n t Ht; simpl in Ht; [lia|]. destruct t.
  - exists (poly1 cs (0 * scale + offset)). split; [reflexivity|]. rewrite poly1_horner.
    assert (Hx : forall a b l, a == b -> horner a l == horner b l) by (intros a b l E; induction l; cbn [horner]; [reflexivity|now rewrite IHl, E]).
    apply Hx. ring.
  - simpl. apply IH. lia.
Qed.
