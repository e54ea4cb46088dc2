(** Proofs about event statistics. *)
From Coq Require Import Sorting.Permutation Sorting.Sorted.
From Verif Require Import Base Ring Events_model Events_spec Events_proofs EventStats_model EventStats_spec.
Local Open Scope nat_scope.
Local Open Scope list_scope.

(** ** Groups *)
Lemma fold_upd_nth (g : nat -> option Q) ids : forall values i, (forall id, In id ids -> id < length values) -> i < length values ->
  nth i (fold_left (fun v id => upd v id (g id)) ids values) None = if existsb (Nat.eqb i) ids then g i else nth i values None.
Proof.
  induction ids as [|id ids IH]; intros values i B Hi; [reflexivity|]. cbn [fold_left existsb].
  rewrite IH.
  - destruct (existsb (Nat.eqb i) ids); [now rewrite orb_true_r|]. rewrite orb_false_r. rewrite nth_upd by (apply B; now left).
    destruct (Nat.eqb_spec i id) as [->|N]; reflexivity.
  - intros id' H. rewrite upd_length. apply B. now right.
  - now rewrite upd_length.
Qed.

Lemma group_values_nth f ncomb rows i : (forall r, In r rows -> fst r < ncomb) -> i < ncomb ->
  nth i (group_values f ncomb rows) None =
  match filter (fun r => Nat.eqb (fst r) i) rows with [] => None | l => Some (pandas_agg f (map snd l)) end.
Proof.
  intros B Hi. unfold group_values.
  rewrite (fold_upd_nth (fun id => Some (pandas_agg f (map snd (filter (fun r => Nat.eqb (fst r) id) rows))))).
  - destruct (existsb (Nat.eqb i) (nodup Nat.eq_dec (map fst rows))) eqn:E.
    + apply existsb_exists in E as [k [Hk Ek]]. apply Nat.eqb_eq in Ek as <-. apply nodup_In, in_map_iff in Hk as [r [Er Hr]].
      assert (In r (filter (fun r => Nat.eqb (fst r) i) rows)) as H by (apply filter_In; split; [exact Hr|now apply Nat.eqb_eq]).
      destruct (filter (fun r => Nat.eqb (fst r) i) rows); [contradiction|reflexivity].
    + rewrite nth_repeat. destruct (filter (fun r => Nat.eqb (fst r) i) rows) as [|r l] eqn:F; [reflexivity|]. exfalso.
      assert (In r (filter (fun r => Nat.eqb (fst r) i) rows)) as H by (rewrite F; now left). apply filter_In in H as [H1 H2]. apply Nat.eqb_eq in H2.
      rewrite <- not_true_iff_false in E. apply E, existsb_exists. exists i. split; [|apply Nat.eqb_refl]. apply nodup_In, in_map_iff. eauto.
  - intros id H. rewrite repeat_length. apply nodup_In, in_map_iff in H as [r [<- H]]. auto.
  - now rewrite repeat_length.
Qed.

Lemma group_events {A} (g : event -> A) i l : map snd (filter (fun r => Nat.eqb (fst r) i) (map (fun e => (e_scenario e, g e)) l)) = map g (of_scenario i l).
Proof.
  unfold of_scenario. induction l as [|e l IH]; [reflexivity|]. cbn [map filter fst]. destruct (Nat.eqb (e_scenario e) i); cbn [map snd]; congruence.
Qed.

Lemma grouped f ncomb (g : event -> Q) l i : (forall e, In e l -> e_scenario e < ncomb) -> i < ncomb ->
  nth i (group_values f ncomb (map (fun e => (e_scenario e, g e)) l)) None =
  match of_scenario i l with [] => None | es => Some (pandas_agg f (map g es)) end.
Proof.
  intros B Hi. rewrite group_values_nth; auto.
  - pose proof (group_events g i l) as E. destruct (filter _ (map (fun e => (e_scenario e, g e)) l)) as [|r rs];
      destruct (of_scenario i l) as [|e es]; try discriminate; [reflexivity|]. now rewrite E.
  - intros r H. apply in_map_iff in H as [e [<- H]]. cbn. auto.
Qed.

(** ** The timesteps of the maximal periods are the triggered ones *)
Lemma left_end trig k : trig k = true -> exists a, a <= k /\ (forall j, a <= j <= k -> trig j = true) /\ (a = 0 \/ trig (a - 1) = false).
Proof.
  induction k as [|k IH]; intros H.
  - exists 0. split; [lia|]. split; [intros j Hj; now replace j with 0 by lia|now left].
  - destruct (trig k) eqn:E.
    + destruct (IH eq_refl) as [a [A [B C]]]. exists a. split; [lia|]. split; [|exact C].
      intros j Hj. destruct (Nat.eq_dec j (S k)) as [->|]; [exact H|]. apply B. lia.
    + exists (S k). split; [lia|]. split; [intros j Hj; now replace j with (S k) by lia|]. right. now replace (S k - 1) with k by lia.
Qed.
Lemma right_end n trig k : k < n -> trig k = true -> exists b, k < b <= n /\ (forall j, k <= j < b -> trig j = true) /\ (b = n \/ trig b = false).
Proof.
  intros Hk Ht. assert (forall m, m <= n - k -> m > 0 -> (forall j, k <= j < k + m -> trig j = true) \/
    exists b, k < b < k + m /\ (forall j, k <= j < b -> trig j = true) /\ trig b = false) as K.
  { induction m as [|m IH]; intros Hm Hp; [lia|]. destruct m as [|m].
    - left. intros j Hj. now replace j with k by lia.
    - destruct (IH ltac:(lia) ltac:(lia)) as [A|[b [B1 [B2 B3]]]].
      + destruct (trig (k + S m)) eqn:E.
        * left. intros j Hj. destruct (Nat.eq_dec j (k + S m)) as [->|]; [exact E|]. apply A. lia.
        * right. exists (k + S m). split; [lia|]. split; [intros j Hj; apply A; lia|exact E].
      + right. exists b. split; [lia|]. now split. }
  destruct (K (n - k) (le_n _) ltac:(lia)) as [A|[b [B1 [B2 B3]]]].
  - exists n. split; [lia|]. split; [intros j Hj; apply A; lia|now left].
  - exists b. split; [lia|]. split; [exact B2|now right].
Qed.
Lemma in_period n trig k : k < n -> trig k = true -> exists a b, maximal_period n trig a b /\ a <= k < b.
Proof.
  intros Hk Ht. destruct (left_end trig k Ht) as [a [A1 [A2 A3]]]. destruct (right_end n trig k Hk Ht) as [b [B1 [B2 B3]]].
  exists a, b. split; [|lia]. split; [lia|]. split; [|now split].
  intros j Hj. destruct (Nat.le_gt_cases j k); [apply A2; lia|apply B2; lia].
Qed.

Definition span (e : event) : list nat := seq (e_start e) (e_end e - e_start e).

Lemma spans_NoDup l : (forall e, In e l -> e_start e < e_end e) -> StronglySorted before_event l -> NoDup (flat_map span l).
Proof.
  intros W. induction 1 as [|e l St IH F]; cbn [flat_map]; [constructor|].
  assert (forall {A} (l1 l2 : list A), NoDup l1 -> NoDup l2 -> (forall x, In x l1 -> ~ In x l2) -> NoDup (l1 ++ l2)) as ND.
  { intros A l1. induction l1 as [|x l1 IH1]; intros l2 N1 N2 D; [exact N2|]. cbn. inversion N1; subst. constructor.
    - rewrite in_app_iff. intros [K|K]; [contradiction|]. apply (D x); [now left|exact K].
    - apply IH1; auto. intros y Hy. apply D. now right. }
  apply ND; [apply seq_NoDup|apply IH; intros e' He'; apply W; now right|].
  intros k Hk H. apply in_seq in Hk. apply in_flat_map in H as [e' [He' H]]. apply in_seq in H. rewrite Forall_forall in F.
  specialize (F e' He'). unfold before_event in F. pose proof (W e (or_introl eq_refl)). lia.
Qed.

Lemma spans_triggered ncomb history l i : run 1 ncomb history = Some l -> i < ncomb ->
  Permutation (flat_map span (of_scenario i l)) (triggered_steps (length history) (trigger history i)).
Proof.
  intros H Hi. destruct (run_spec 1 ncomb history l i H Hi) as [St Ev]. cbv zeta in Ev.
  assert (forall e, In e (of_scenario i l) -> maximal_period (length history) (trigger history i) (e_start e) (e_end e)) as M.
  { intros e He. apply Ev in He as (a & b & P & _ & ->). exact P. }
  apply NoDup_Permutation.
  - apply spans_NoDup; [|exact St]. intros e He. destruct (M e He) as [? _]. lia.
  - apply NoDup_filter, seq_NoDup.
  - intros k. unfold triggered_steps. rewrite in_flat_map, filter_In, in_seq. split.
    + intros [e [He Hk]]. apply in_seq in Hk. destruct (M e He) as (A & B & _). split; [lia|apply B; lia].
    + intros [Hk Ht]. destruct (in_period (length history) (trigger history i) k ltac:(lia) Ht) as (a & b & P & Hab).
      exists (Event i a b (values_of (tracked history i) a b)). split; [|apply in_seq; cbn; lia].
      apply Ev. exists a, b. split; [exact P|]. split; [|reflexivity]. left. lia.
Qed.

(** ** Aggregates *)
Lemma fold_plus l : forall a, (fold_left Qplus l a == a + qsum l)%Q.
Proof. induction l as [|x l IH]; intros a; cbn [fold_left qsum fold_right]; [ring|]. rewrite IH. unfold qsum. ring. Qed.
Lemma sum_qsum l : (pandas_agg PSum l == qsum l)%Q.
Proof. cbn [pandas_agg]. rewrite fold_plus. ring. Qed.

Lemma fold_max l : forall a, (forall w, In w (a :: l) -> (w <= fold_left qmax l a)%Q) /\ exists w, In w (a :: l) /\ (w == fold_left qmax l a)%Q.
Proof.
  induction l as [|x l IH]; intros a; cbn [fold_left].
  - split; [intros w [<-|[]]; apply Qle_refl|]. exists a. split; [now left|reflexivity].
  - destruct (IH (qmax a x)) as [A [w [B C]]]. pose proof (A (qmax a x) (or_introl eq_refl)) as M. split.
    + intros v [<-|[<-|Hv]].
      * eapply Qle_trans; [|exact M]. unfold qmax. qif; lra.
      * eapply Qle_trans; [|exact M]. unfold qmax. qif; lra.
      * apply A. now right.
    + destruct B as [<-|B].
      * unfold qmax in C at 1. destruct (qleb a x) eqn:E; [exists x|exists a]; (split; [cbn; tauto|]);
          revert C; unfold qmax at 1; rewrite ?E; auto.
      * exists w. split; [cbn; tauto|exact C].
Qed.

Lemma fold_min l : forall a, (forall w, In w (a :: l) -> (fold_left qmin l a <= w)%Q) /\ exists w, In w (a :: l) /\ (w == fold_left qmin l a)%Q.
Proof.
  induction l as [|x l IH]; intros a; cbn [fold_left].
  - split; [intros w [<-|[]]; apply Qle_refl|]. exists a. split; [now left|reflexivity].
  - destruct (IH (qmin a x)) as [A [w [B C]]]. pose proof (A (qmin a x) (or_introl eq_refl)) as M. split.
    + intros v [<-|[<-|Hv]].
      * eapply Qle_trans; [exact M|]. unfold qmin. qif; lra.
      * eapply Qle_trans; [exact M|]. unfold qmin. qif; lra.
      * apply A. now right.
    + destruct B as [<-|B].
      * unfold qmin in C at 1. destruct (qleb a x) eqn:E; [exists a|exists x]; (split; [cbn; tauto|]);
          revert C; unfold qmin at 1; rewrite ?E; auto.
      * exists w. split; [cbn; tauto|exact C].
Qed.

Lemma max_greatest l : l <> [] -> greatest (pandas_agg PMax l) l.
Proof. destruct l as [|a l]; [contradiction|]. intros _. destruct (fold_max l a) as [A B]. split; [exact B|exact A]. Qed.
Lemma min_least l : l <> [] -> least (pandas_agg PMin l) l.
Proof. destruct l as [|a l]; [contradiction|]. intros _. destruct (fold_min l a) as [A B]. split; [exact B|exact A]. Qed.

Lemma qsum_flat_map {A B} (g : B -> Q) (f : A -> list B) l : (qsum (map g (flat_map f l)) == qsum (map (fun x => qsum (map g (f x))) l))%Q.
Proof.
  induction l as [|x l IH]; [reflexivity|]. cbn [flat_map map]. rewrite map_app, qsum_app, IH. reflexivity.
Qed.

(** ** Durations *)
Lemma time_span time len : whole_days time len -> forall a m, (time (a + m)%nat - time a = 86400 * fold_right Z.add 0 (map len (seq a m)))%Z.
Proof.
  intros W a m. revert a. induction m as [|m IH]; intros a; cbn [seq map fold_right].
  - rewrite Nat.add_0_r. lia.
  - specialize (IH (S a)). rewrite (W a) in IH. replace (a + S m) with (S a + m) by lia. lia.
Qed.
Lemma inject_fold len l : (inject_Z (fold_right Z.add 0%Z (map len l)) == qsum (map (days len) l))%Q.
Proof.
  induction l as [|k l IH]; cbn [map fold_right]; [reflexivity|]. rewrite inject_Z_plus, IH. reflexivity.
Qed.
Lemma duration_span time len e : whole_days time len -> e_start e <= e_end e -> (inject_Z (duration_days time e) == qsum (map (days len) (span e)))%Q.
Proof.
  intros W H. unfold duration_days. pose proof (time_span time len W (e_start e) (e_end e - e_start e)) as T.
  replace (e_start e + (e_end e - e_start e)) with (e_end e) in T by lia. rewrite T, Z.mul_comm, Z.div_mul by lia. apply inject_fold.
Qed.

Lemma run_events_wf minimum ncomb history l i e : run minimum ncomb history = Some l -> i < ncomb -> In e (of_scenario i l) ->
  maximal_period (length history) (trigger history i) (e_start e) (e_end e) /\
  e_values e = map (tracked history i) (span e).
Proof.
  intros H Hi He. destruct (run_spec minimum ncomb history l i H Hi) as [_ K]. apply K in He as (a & b & M & _ & ->). cbn. split; [exact M|reflexivity].
Qed.

Lemma of_scenario_nil m ncomb history l i : run m ncomb history = Some l -> i < ncomb -> m <= 1 ->
  (of_scenario i l = [] <-> never (length history) (trigger history i)).
Proof.
  intros H Hi Hm. destruct (run_spec m ncomb history l i H Hi) as [_ K]. cbv zeta in K. split.
  - intros E k Hk. destruct (trigger history i k) eqn:T; [|reflexivity]. exfalso.
    destruct (in_period _ _ k Hk T) as (a & b & P & Hab).
    assert (In (Event i a b (values_of (tracked history i) a b)) (of_scenario i l)) as I by (apply K; exists a, b; split; [exact P|split; [left; lia|reflexivity]]).
    now rewrite E in I.
  - intros N. destruct (of_scenario i l) as [|e es] eqn:E; [reflexivity|]. exfalso.
    destruct (proj1 (K e) (or_introl eq_refl)) as (a & b & (A & B & _) & _ & _). specialize (N a ltac:(lia)). rewrite B in N by lia. discriminate.
Qed.
