From Coq Require Import Ascii String.
From Verif Require Import Base Ring Thresholds_model ThresholdRec_model.
Local Open Scope Q_scope.
Local Open Scope list_scope.

(** What the names say. *)
Inductive relation := Less | Greater | Equal | AtMost | AtLeast.
Definition holds (r : relation) (x threshold : Q) : Prop :=
  match r with Less => x < threshold | Greater => threshold < x | Equal => x == threshold | AtMost => x <= threshold | AtLeast => threshold <= x end.
Definition names (r : relation) : list string :=
  match r with
  | Less => ["LT"; "<"]%string | Greater => ["GT"; ">"]%string | Equal => ["EQ"; "="]%string
  | AtMost => ["LE"; "<="]%string | AtLeast => ["GE"; ">="]%string
  end.
Definition number (r : relation) : Z := match r with Less => 0 | Greater => 1 | Equal => 2 | AtMost => 3 | AtLeast => 4 end.

(** C94: the ten names, in upper or lower case, and nothing else. *)
Theorem C94_names : forall s p, chosen (GName s) = Some p <-> exists r, In (upper s) (names r) /\ p = number r.
Proof.
  intros s p. unfold chosen. set (u := upper s). split.
  - unfold lookup.
    repeat match goal with |- context [String.eqb u ?k] => destruct (String.eqb_spec u k) as [E|?] end; cbn; try discriminate; intros [= <-]; rewrite E;
      first [exists Less; cbn; now auto | exists Greater; cbn; now auto | exists Equal; cbn; now auto | exists AtMost; cbn; now auto | exists AtLeast; cbn; now auto].
  - intros (r & H & ->). destruct r; cbn in H; destruct H as [H|[H|[]]]; rewrite <- H; reflexivity.
Qed.
Print Assumptions C94_names.
Example C94_names_example : chosen (GName "le") = Some 3%Z /\ chosen (GName "ne") = None /\ chosen GNothing = Some 0%Z.
Proof. repeat split. Qed.

Lemma compare_holds r x threshold : (compare x threshold (number r) = 1%Z <-> holds r x threshold) /\ (compare x threshold (number r) = 0%Z <-> ~ holds r x threshold).
Proof. unfold compare, of_number. destruct r; cbn -[qltb qleb qeqb]; qifs; split; split; intros; try discriminate; auto; try lra; exfalso; try lra; auto. Qed.

Lemma after_from_length threshold p : forall xs id state, length (after_from threshold p id xs state) = length state.
Proof. induction xs; intros; simpl; [reflexivity|]. rewrite IHxs. apply upd_length. Qed.
Lemma after_from_nth threshold p : forall xs id state i d, (id + length xs <= length state)%nat ->
  nth i (after_from threshold p id xs state) d =
  if (Nat.leb id i && Nat.ltb i (id + length xs))%bool then compare (nth (i - id) xs 0) threshold p else nth i state d.
Proof.
  induction xs as [|x xs IH]; intros id state i d L; cbn [after_from length].
  - rewrite Nat.add_0_r. destruct (Nat.leb_spec id i); simpl; [|reflexivity]. destruct (Nat.ltb_spec i id); [lia|reflexivity].
  - simpl in L. rewrite IH by (rewrite upd_length; lia). destruct (Nat.leb_spec (S id) i); cbn [andb].
    + destruct (Nat.ltb_spec i (S id + length xs)); destruct (Nat.leb_spec id i); destruct (Nat.ltb_spec i (id + S (length xs))); try lia; cbn [andb nth].
      * destruct (i - id)%nat eqn:E; [lia|]. now replace (i - S id)%nat with n by lia.
      * rewrite nth_upd by lia. destruct (Nat.eqb_spec i id); [lia|reflexivity].
    + destruct (Nat.leb_spec id i); destruct (Nat.ltb_spec i (id + S (length xs))); try lia; cbn [andb nth].
      * replace i with id by lia. rewrite Nat.sub_diag. rewrite nth_upd, Nat.eqb_refl by lia. reflexivity.
      * rewrite nth_upd by lia. destruct (Nat.eqb_spec i id); [lia|reflexivity].
Qed.
Lemma run_length ncomb threshold p : forall history, length (run ncomb threshold p history) = ncomb.
Proof.
  intros history. unfold run. assert (G : forall h s, length (fold_left (fun st xs => after threshold p xs st) h s) = length s).
  { induction h; intros; simpl; [reflexivity|]. rewrite IHh. apply after_from_length. }
  rewrite G. apply repeat_length.
Qed.

(** Without a predicate, below the threshold is meant. *)
Theorem C94_default : exists p, chosen GNothing = Some p /\ forall x threshold, compare x threshold p = 1%Z <-> x < threshold.
Proof. exists (number Less). split; [reflexivity|]. intros x threshold. apply (compare_holds Less). Qed.
Print Assumptions C94_default.

(** A threshold parameter takes its predicate by the same names (parameters/_thresholds.pyx:11-17, 55-60), so what it tests is the relation named; for none
    it is "less than". *)
Theorem C47_named : (forall s r, In (upper s) (names r) -> exists p, chosen (GName s) = Some p
    /\ forall x threshold, test (of_number p) x threshold = true <-> holds r x threshold)
  /\ exists p, chosen GNothing = Some p /\ forall x threshold, test (of_number p) x threshold = true <-> x < threshold.
Proof.
  assert (T : forall p x threshold, test (of_number p) x threshold = true <-> compare x threshold p = 1%Z).
  { intros p x threshold. unfold compare. destruct (test (of_number p) x threshold); split; congruence. }
  split.
  - intros s r H. exists (number r). split; [apply C94_names; exists r; auto|]. intros x threshold. rewrite T. apply compare_holds.
  - destruct C94_default as (p & E & H). exists p. split; [exact E|]. intros x threshold. rewrite T. apply H.
Qed.
Print Assumptions C47_named.

(** After a run the value of a combination is 1 if its volume (or flow) in the last timestep stood in the relation to the threshold and 0 if not;
    earlier timesteps leave no trace. *)
Theorem C94_last_timestep : forall ncomb threshold r history now i, length now = ncomb -> (i < ncomb)%nat ->
  let v := nth i (values (run ncomb threshold (number r) (history ++ [now]))) 0 in
  (holds r (nth i now 0) threshold -> v = 1) /\ (~ holds r (nth i now 0) threshold -> v = 0).
Proof.
  intros ncomb threshold r history now i L Hi v.
  assert (E : v = inject_Z (compare (nth i now 0) threshold (number r))).
  { unfold v, values. change 0 with (inject_Z 0). rewrite map_nth. f_equal.
    assert (R : run ncomb threshold (number r) (history ++ [now]) = after threshold (number r) now (run ncomb threshold (number r) history))
      by (unfold run; now rewrite fold_left_app).
    rewrite R. unfold after. rewrite after_from_nth by (rewrite run_length; lia). cbn [Nat.leb andb Nat.add]. destruct (Nat.ltb_spec i (length now)); [|lia]. now rewrite Nat.sub_0_r. }
  rewrite E. destruct (compare_holds r (nth i now 0) threshold) as [A B].
  split; intros H; [apply A in H|apply B in H]; now rewrite H.
Qed.
Print Assumptions C94_last_timestep.

(** Before the first timestep all values are 0. *)
Theorem C94_at_start : forall ncomb threshold p, values (run ncomb threshold p []) = repeat 0 ncomb.
Proof. intros. unfold run, values, reset. simpl. induction ncomb; simpl; [reflexivity|]. now rewrite IHncomb. Qed.
Print Assumptions C94_at_start.

(** A number given as predicate is not checked: 7 is accepted and tests for equality. *)
Theorem C94_number_refuted : exists z p, chosen (GNumber z) = Some p /\ (forall r, p <> number r) /\
  forall x threshold, compare x threshold p = 1%Z <-> x == threshold.
Proof.
  exists 7%Z, 7%Z. split; [reflexivity|]. split; [destruct r; discriminate|].
  intros. unfold compare. cbn -[qeqb]. destruct (qeqbP x threshold); split; auto; try discriminate; contradiction.
Qed.
Print Assumptions C94_number_refuted.

Example C94_example : values (run 2 5 (number AtMost) [[1; 9]; [6; 5]]) = [0; 1].
Proof. reflexivity. Qed.
