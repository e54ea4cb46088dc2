(** Proofs about aggregators. *)
From Coq Require Import Sorting.Permutation.
From Verif Require Import Base LP_model Sorting Aggregate_model Aggregate_spec Aggregate_proofs Series_model Series_spec Series_proofs Aggregator_model Aggregator_spec.
Local Open Scope Q_scope.
Local Open Scope list_scope.

Lemma qmax_fold l : forall a, In (fold_left qmax l a) (a :: l) /\ forall x, In x (a :: l) -> x <= fold_left qmax l a.
Proof.
  induction l as [|y l IH]; intros a; cbn [fold_left].
  - split; [now left|]. intros x [<-|[]]. apply Qle_refl.
  - destruct (IH (qmax a y)) as [A B]. pose proof (B (qmax a y) (or_introl eq_refl)) as M. split.
    + destruct A as [A|A]; [|right; now right]. rewrite <- A. unfold qmax. destruct (qleb a y); [right; now left|now left].
    + intros x [<-|[<-|H]]; [| |apply B; now right]; (eapply Qle_trans; [|exact M]); unfold qmax; destruct (qlebP a y); lra.
Qed.
Lemma qmin_fold l : forall a, In (fold_left qmin l a) (a :: l) /\ forall x, In x (a :: l) -> fold_left qmin l a <= x.
Proof.
  induction l as [|y l IH]; intros a; cbn [fold_left].
  - split; [now left|]. intros x [<-|[]]. apply Qle_refl.
  - destruct (IH (qmin a y)) as [A B]. pose proof (B (qmin a y) (or_introl eq_refl)) as M. split.
    + destruct A as [A|A]; [|right; now right]. rewrite <- A. unfold qmin. destruct (qleb a y); [now left|right; now left].
    + intros x [<-|[<-|H]]; [| |apply B; now right]; (eapply Qle_trans; [exact M|]); unfold qmin; destruct (qlebP a y); lra.
Qed.

Lemma np_numbers_spec f l : named f -> l <> [] -> exists v, np_numbers f l = Some (Some v) /\ aggregates f l v.
Proof.
  intros Nf N. destruct f; cbn [np_numbers aggregates named] in *; try contradiction.
  - eexists. split; [reflexivity|]. rewrite fold_sum. ring.
  - destruct l as [|x r]; [contradiction|]. eexists. split; [reflexivity|]. exact (qmin_fold r x).
  - destruct l as [|x r]; [contradiction|]. eexists. split; [reflexivity|]. exact (qmax_fold r x).
  - destruct l as [|x r] eqn:E; [contradiction|]. rewrite <- E in *. eexists. split; [reflexivity|]. unfold is_mean. rewrite fold_sum. field.
    now apply length_nonzero.
  - destruct l as [|x r] eqn:E; [contradiction|]. rewrite <- E in *. eexists. split; [reflexivity|]. now apply np_median_spec.
  - eexists. split; [reflexivity|]. rewrite fold_prod. ring.
  - destruct (np_percentile_total l p N Nf) as [v E]. rewrite E. exists v. split; [reflexivity|]. now apply np_percentile_spec.
  - eexists. split; [reflexivity|]. reflexivity.
Qed.

Lemma numbers_map l : numbers (map Some l) = l.
Proof. induction l as [|x l IH]; [reflexivity|]. cbn. now rewrite IH. Qed.
Lemma no_nan l : existsb is_nan (map (@Some Q) l) = false.
Proof. induction l as [|x l IH]; [reflexivity|]. exact IH. Qed.
Lemma no_nan_map l : existsb is_nan l = false -> l = map Some (numbers l).
Proof. induction l as [|[x|] l IH]; intros H; [reflexivity| |discriminate]. cbn in *. now rewrite <- IH. Qed.
Lemma np_apply_numbers f l : np_apply f (map Some l) = np_numbers f l.
Proof. unfold np_apply. now rewrite no_nan, numbers_map. Qed.

Lemma all_some_nth {A} (l : list (option A)) : forall m i d e, all_some l = Some m -> (i < length l)%nat -> nth i l d = Some (nth i m e).
Proof.
  induction l as [|x l IH]; intros m i d e H Hi; [cbn in Hi; lia|]. cbn [all_some] in H. destruct x as [x|]; [|discriminate].
  destruct (all_some l) as [m'|] eqn:E; [|discriminate]. injection H as <-. destruct i as [|i]; [reflexivity|]. cbn [nth]. apply IH; [reflexivity|cbn in Hi; lia].
Qed.
Lemma all_some_length {A} (l : list (option A)) : forall m, all_some l = Some m -> length m = length l.
Proof.
  induction l as [|x l IH]; intros m H; cbn [all_some] in H; [now injection H as <-|]. destruct x as [x|]; [|discriminate].
  destruct (all_some l) as [m'|]; [|discriminate]. injection H as <-. cbn. now rewrite (IH m').
Qed.
Lemma all_some_map {A B} (f : A -> option B) (g : A -> B) l : (forall x, In x l -> f x = Some (g x)) -> all_some (map f l) = Some (map g l).
Proof.
  induction l as [|x l IH]; intros H; [reflexivity|]. cbn [map all_some]. rewrite (H x) by now left. rewrite IH by (intros; apply H; now right). reflexivity.
Qed.
Lemma all_some_total {A} (l : list (option A)) : (forall i, (i < length l)%nat -> exists x, nth i l None = Some x) -> exists m, all_some l = Some m.
Proof.
  induction l as [|x l IH]; intros H; [eexists; reflexivity|]. cbn [all_some]. destruct (H 0%nat ltac:(cbn; lia)) as [y E]. cbn in E. subst x.
  destruct IH as [m ->]; [|eexists; reflexivity]. intros i Hi. exact (H (S i) ltac:(cbn; lia)).
Qed.

Lemma fold_nan_op op l : forall a, fold_left (nan_op op) (map Some l) (Some a) = Some (fold_left op l a).
Proof. induction l as [|x l IH]; intros a; [reflexivity|]. cbn. apply IH. Qed.
Lemma fold_nan_none op l : fold_left (nan_op op) l None = None.
Proof. induction l as [|x l IH]; [reflexivity|]. exact IH. Qed.
Lemma fold_nan_step l : forall a, fold_left nan_max l a = fold_left max_step (numbers l) a.
Proof. induction l as [|[x|] l IH]; intros a; [reflexivity| |]; cbn; apply IH. Qed.
Lemma fold_nan_step_min l : forall a, fold_left nan_min l a = fold_left min_step (numbers l) a.
Proof. induction l as [|[x|] l IH]; intros a; [reflexivity| |]; cbn; apply IH. Qed.
