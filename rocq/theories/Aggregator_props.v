(** C89: aggregation over time, scenarios and recorders. *)
From Coq Require Import Sorting.Permutation.
From Verif Require Import Base LP_model Sorting Aggregate_model Aggregate_spec Aggregate_proofs Series_model Series_spec Series_proofs.
From Verif Require Import Aggregator_model Aggregator_spec Aggregator_proofs.
Local Open Scope Q_scope.
Local Open Scope list_scope.

(** C89: a named function gives the aggregate of that name over the scenarios. *)
Theorem C89_named : forall f ignore l, named f -> l <> [] -> exists v, aggregate_1d f ignore (map Some l) = Some (Some v) /\ aggregates f l v.
Proof.
  intros f ignore l Nf N. destruct (np_numbers_spec f l Nf N) as [v [H A]]. exists v. split; [|exact A]. unfold aggregate_1d.
  destruct ignore; [|now rewrite np_apply_numbers]. rewrite numbers_map. destruct l; [contradiction|]. now rewrite np_apply_numbers.
Qed.
Print Assumptions C89_named.

(** C89: with ignore_nan the value over the scenarios is that of the numbers among them, NaN if there are none; without it one NaN makes every
    aggregate NaN, except the count. *)
Theorem C89_ignore_nan : forall f l, named f ->
  (numbers l = [] -> aggregate_1d f true l = Some None) /\
  (numbers l <> [] -> exists v, aggregate_1d f true l = Some (Some v) /\ aggregates f (numbers l) v) /\
  (In None l -> f <> FCountNonzero -> aggregate_1d f false l = Some None).
Proof.
  intros f l Nf. unfold aggregate_1d. split; [intros ->; reflexivity|]. split.
  - intros N. destruct (np_numbers_spec f (numbers l) Nf N) as [v [H A]]. exists v. split; [|exact A]. destruct (numbers l) eqn:E; [contradiction|].
    rewrite np_apply_numbers. exact H.
  - intros I NC. unfold np_apply. assert (existsb is_nan l = true) as -> by (apply existsb_exists; exists None; now split).
    destruct f; cbn [named] in Nf; try reflexivity; try contradiction.
    destruct (qltbP p 0); [lra|]. destruct (qltbP 100 p); [lra|]. reflexivity.
Qed.
Print Assumptions C89_ignore_nan.

(** C89: over time, each scenario has the aggregate of its own column. *)
Theorem C89_over_time : forall f n rows i, named f -> rows <> [] -> (i < n)%nat -> (forall row, In row rows -> length row = n) ->
  (forall row d, In row rows -> In d row -> d <> None) ->
  exists values v, aggregate_2d f false n rows = Some values /\ length values = n /\ nth i values None = Some v /\ aggregates f (numbers (column i rows)) v /\
    column i rows = map Some (numbers (column i rows)).
Proof.
  intros f n rows i Nf N Hi L NN.
  assert (forall i, (i < n)%nat -> column i rows = map Some (numbers (column i rows))) as C.
  { intros j Hj. apply no_nan_map. apply not_true_iff_false. intros H. apply existsb_exists in H as [d [Hd Hn]]. destruct d; [discriminate|].
    apply in_map_iff in Hd as [row [E Hr]]. apply (NN row None Hr); [|reflexivity]. rewrite <- E. apply nth_In. now rewrite L. }
  assert (forall i, (i < n)%nat -> exists v, np_apply f (column i rows) = Some (Some v) /\ aggregates f (numbers (column i rows)) v) as V.
  { intros j Hj. rewrite (C j Hj), np_apply_numbers, numbers_map. apply np_numbers_spec; [exact Nf|]. destruct rows as [|r rows]; [contradiction|].
    intros E0. pose proof (C j Hj) as Cj. rewrite E0 in Cj. discriminate Cj. }
  assert (exists values, aggregate_2d f false n rows = Some values) as [values E].
  { unfold aggregate_2d. apply all_some_total. intros j Hj. rewrite map_length, seq_length in Hj. destruct (V j Hj) as [v [H _]]. exists (Some v).
    rewrite (nth_indep _ None (np_apply f (column 0 rows))) by (rewrite map_length, seq_length; lia).
    rewrite (map_nth (fun i => np_apply f (column i rows))), seq_nth by exact Hj. exact H. }
  destruct (V i Hi) as [v [H A]]. exists values, v. split; [exact E|]. unfold aggregate_2d in E.
  pose proof (all_some_length _ _ E) as Le. rewrite map_length, seq_length in Le. split; [exact Le|]. split; [|split; [exact A|exact (C i Hi)]].
  pose proof (all_some_nth _ _ i (np_apply f (column 0 rows)) None E ltac:(rewrite map_length, seq_length; exact Hi)) as R.
  rewrite (map_nth (fun i => np_apply f (column i rows))), seq_nth in R by exact Hi. cbn [Nat.add] in R. rewrite H in R. congruence.
Qed.
Print Assumptions C89_over_time.

(** All numbers of a table, scenario by scenario. *)
Definition table (n : nat) (rows : list (list Q)) : list Q := flat_map (fun i => map (fun row => nth i row 0) rows) (seq 0 n).

(** C89: sum of sums, mean of means, largest of largest and smallest of smallest are those of all timesteps and scenarios together. *)
Theorem C89_overall : forall n rows, rows <> [] -> (0 < n)%nat -> (forall row, In row rows -> length row = n) ->
  let all := table n rows in let data := map (map Some) rows in
  (exists v, series_value FSum FSum false n data = Some (Some v) /\ v == qsum all) /\
  (exists v, series_value FMean FMean false n data = Some (Some v) /\ is_mean all v) /\
  (exists v, series_value FMax FMax false n data = Some (Some v) /\ is_max all v) /\
  (exists v, series_value FMin FMin false n data = Some (Some v) /\ is_min all v).
Proof.
  intros n rows N Hn L. cbv zeta. set (col := fun i => map (fun row => nth i row 0) rows).
  assert (forall i, (i < n)%nat -> column i (map (map Some) rows) = map Some (col i)) as C.
  { intros i Hi. unfold column, col. rewrite !map_map. apply map_ext_in. intros row Hr. rewrite (nth_indep _ None (Some 0)) by (rewrite map_length, L; auto). apply map_nth. }
  assert (forall i, col i <> []) as NC by (intros i; unfold col; destruct rows; [contradiction|discriminate]).
  assert (forall f, named f -> exists vs, aggregate_2d f false n (map (map Some) rows) = Some (map Some vs) /\ length vs = n /\
            forall i, (i < n)%nat -> aggregates f (col i) (nth i vs 0)) as V.
  { intros f Nf. exists (map (fun i => match np_numbers f (col i) with Some (Some v) => v | _ => 0 end) (seq 0 n)). split; [|split].
    - unfold aggregate_2d. rewrite map_map. apply all_some_map. intros i Hi. apply in_seq in Hi. rewrite C by lia. rewrite np_apply_numbers.
      destruct (np_numbers_spec f (col i) Nf (NC i)) as [v [-> _]]. reflexivity.
    - now rewrite map_length, seq_length.
    - intros i Hi. destruct (np_numbers_spec f (col i) Nf (NC i)) as [v [H A]].
      rewrite (nth_indep _ 0 (match np_numbers f (col 0%nat) with Some (Some v) => v | _ => 0 end)) by (rewrite map_length, seq_length; exact Hi).
      rewrite (map_nth (fun i => match np_numbers f (col i) with Some (Some v) => v | _ => 0 end)), seq_nth by exact Hi. cbn [Nat.add]. now rewrite H. }
  assert (forall vs : list Q, length vs = n -> vs <> []) as NV by (intros vs Lv ->; cbn in Lv; lia).
  assert (forall (vs : list Q), length vs = n -> vs = map (fun i => nth i vs 0) (seq 0 n)) as VS.
  { intros vs Lv. apply (nth_ext _ _ 0 0); [now rewrite map_length, seq_length|]. intros i Hi.
    rewrite (nth_indep (map _ _) 0 (nth 0 vs 0)) by (rewrite map_length, seq_length; lia). rewrite (map_nth (fun i => nth i vs 0)), seq_nth by lia. reflexivity. }
  assert (forall x, In x (table n rows) <-> exists i, (i < n)%nat /\ In x (col i)) as IT.
  { intros x. unfold table. rewrite in_flat_map. split; intros [i [A B]]; exists i; (split; [|exact B]); [apply in_seq in A; lia|apply in_seq; lia]. }
  assert (qsum (table n rows) == qsum (map (fun i => qsum (col i)) (seq 0 n))) as ST.
  { unfold table. fold col. generalize (seq 0 n). intros s. induction s as [|i s IH]; [reflexivity|]. cbn [flat_map map]. rewrite qsum_app. fold (col i). rewrite IH. reflexivity. }
  unfold series_value. repeat split.
  - destruct (V FSum I) as (vs & -> & Lv & A). destruct (C89_named FSum false vs I (NV vs Lv)) as [v [H E]]. exists v. split; [exact H|]. cbn [aggregates] in E, A.
    rewrite E, ST, (VS vs Lv). apply qsum_map_ext. intros i Hi. apply in_seq in Hi. apply A. lia.
  - destruct (V FMean I) as (vs & -> & Lv & A). destruct (C89_named FMean false vs I (NV vs Lv)) as [v [H E]]. exists v. split; [exact H|]. cbn [aggregates] in E, A.
    unfold is_mean in *. rewrite ST. set (T := inject_Z (Z.of_nat (length rows))).
    assert (inject_Z (Z.of_nat (length (table n rows))) == inject_Z (Z.of_nat n) * T) as ->.
    { unfold T, table. fold col. assert (forall s, length (flat_map (fun i => map (fun row => nth i row 0) rows) s) = (length s * length rows)%nat) as LT.
      { intros s. induction s as [|i s IH]; [reflexivity|]. cbn [flat_map length Nat.mul]. now rewrite app_length, IH, map_length. }
      rewrite LT, seq_length, Nat2Z.inj_mul, inject_Z_mult. reflexivity. }
    rewrite Lv in E. rewrite Qmult_assoc, E, (VS vs Lv). rewrite Qmult_comm, <- qsum_map_scale. apply qsum_map_ext. intros i Hi. apply in_seq in Hi.
    rewrite <- (A i) by lia. unfold col. rewrite map_length. fold T. ring.
  - destruct (V FMax I) as (vs & -> & Lv & A). destruct (C89_named FMax false vs I (NV vs Lv)) as [v [H [E1 E2]]]. exists v. split; [exact H|]. cbn [aggregates] in A. split.
    + apply (In_nth _ _ 0) in E1 as [i [Hi <-]]. rewrite Lv in Hi. apply IT. exists i. split; [exact Hi|]. apply (A i Hi).
    + intros x Hx. apply IT in Hx as [i [Hi Hx]]. eapply Qle_trans; [apply (A i Hi), Hx|]. apply E2, nth_In. now rewrite Lv.
  - destruct (V FMin I) as (vs & -> & Lv & A). destruct (C89_named FMin false vs I (NV vs Lv)) as [v [H [E1 E2]]]. exists v. split; [exact H|]. cbn [aggregates] in A. split.
    + apply (In_nth _ _ 0) in E1 as [i [Hi <-]]. rewrite Lv in Hi. apply IT. exists i. split; [exact Hi|]. apply (A i Hi).
    + intros x Hx. apply IT in Hx as [i [Hi Hx]]. eapply Qle_trans; [|apply (A i Hi), Hx]. apply E2, nth_In. now rewrite Lv.
Qed.
Print Assumptions C89_overall.

(** C89 (refuted part): with ignore_nan a recorder with a time series has no value, although the series has numbers in every scenario (even without
    a single NaN). *)
Theorem C89_ignore_nan_series_refuted : exists n rows, (forall row d, In row rows -> In d row -> d <> None) /\ rows <> [] /\ (0 < n)%nat /\
  forall g f, series_value g f true n rows = None.
Proof.
  exists 1%nat, [[Some 1]; [Some 2]]. split; [|split; [discriminate|split; [lia|reflexivity]]].
  intros row d [<-|[<-|[]]] [<-|[]]; discriminate.
Qed.
Print Assumptions C89_ignore_nan_series_refuted.

(** ** AggregatedRecorder *)

Definition basic (f : func) : Prop := match f with FSum | FProduct | FMin | FMax | FMean => True | _ => False end.

(** C89: an aggregated recorder gives each scenario the aggregate of its members' values for that scenario. *)
Theorem C89_aggregated : forall f agg_func n members i, basic f -> members <> [] -> (i < n)%nat -> (forall vs, In vs members -> length vs = n) ->
  (forall vs d, In vs members -> In d vs -> d <> None) ->
  exists r values v, make_aggregated (GName f) agg_func = Some r /\ aggregated_values r n members = Some values /\
    nth i values None = Some (Fin v) /\ aggregates f (numbers (map (fun vs => nth i vs None) members)) v.
Proof.
  intros f agg_func n members i Bf N Hi L NN.
  assert (forall i, (i < n)%nat -> map (fun vs => nth i vs None) members = map Some (numbers (map (fun vs => nth i vs None) members))) as C.
  { intros j Hj. apply no_nan_map. apply not_true_iff_false. intros H. apply existsb_exists in H as [d [Hd Hn]]. destruct d; [discriminate|].
    apply in_map_iff in Hd as [row [E Hr]]. apply (NN row None Hr); [|reflexivity]. rewrite <- E. apply nth_In. now rewrite L. }
  assert (forall i, (i < n)%nat -> exists v, aggregated_one (Aggregated f None) members i = Some (Some (Fin v)) /\ aggregates f (numbers (map (fun vs => nth i vs None) members)) v) as V.
  { intros j Hj. pose proof (C j Hj) as Cj. set (l := numbers (map (fun vs => nth j vs None) members)) in *.
    assert (length l = length members) as Ll by (rewrite <- (map_length (@Some Q) l), <- Cj; apply map_length).
    assert (l <> []) as Nl by (intros E; rewrite E in Ll; destruct members; [contradiction|discriminate]).
    unfold aggregated_one. rewrite Cj. destruct f; cbn [basic] in Bf; try contradiction; cbn [a_recorder_func aggregates].
    - rewrite fold_nan_op. eexists. split; [reflexivity|]. rewrite fold_sum. ring.
    - rewrite fold_nan_step_min, numbers_map. destruct (fold_min_ne l Nl) as [m [-> M]]. eexists. split; [reflexivity|exact M].
    - rewrite fold_nan_step, numbers_map. destruct (fold_max_ne l Nl) as [m [-> M]]. eexists. split; [reflexivity|exact M].
    - rewrite fold_nan_op. eexists. split; [reflexivity|]. unfold is_mean, double in *. rewrite <- Ll. rewrite fold_sum. field. now apply length_nonzero.
    - rewrite fold_nan_op. eexists. split; [reflexivity|]. rewrite fold_prod. ring. }
  assert (exists values, aggregated_values (Aggregated f None) n members = Some values) as [values E].
  { unfold aggregated_values. destruct members as [|m0 ms] eqn:Em; [contradiction|]. rewrite <- Em in *. apply all_some_total. intros j Hj. rewrite map_length, seq_length in Hj.
    destruct (V j Hj) as [v [H _]]. exists (Some (Fin v)). rewrite (nth_indep _ None (aggregated_one (Aggregated f None) members 0)) by (rewrite map_length, seq_length; lia).
    rewrite (map_nth (aggregated_one (Aggregated f None) members)), seq_nth by exact Hj. exact H. }
  destruct (V i Hi) as [v [H A]]. exists (Aggregated f None), values, v. split; [destruct agg_func; reflexivity|]. split; [exact E|]. split; [|exact A].
  unfold aggregated_values in E. destruct members as [|m0 ms] eqn:Em; [contradiction|]. rewrite <- Em in *.
  pose proof (all_some_nth _ _ i (aggregated_one (Aggregated f None) members 0) None E ltac:(rewrite map_length, seq_length; exact Hi)) as R.
  rewrite (map_nth (aggregated_one (Aggregated f None) members)), seq_nth in R by exact Hi. cbn [Nat.add] in R. rewrite H in R. congruence.
Qed.
Print Assumptions C89_aggregated.

(** C89: [recorder_agg_func] is used for the members if given, else [agg_func]. *)
Theorem C89_aggregated_func : forall rf af r, make_aggregated rf af = Some r ->
  match rf, af with
  | GName f, _ => a_recorder_func r = f
  | GNothing, GName f => a_recorder_func r = f
  | GCallable g, _ | GNothing, GCallable g => a_user r = Some g
  | GNothing, GNothing => False
  end.
Proof. intros [| |] [| |] r H; cbn in H; try discriminate; injection H as <-; reflexivity. Qed.
Print Assumptions C89_aggregated_func.

(** C89 (refuted part): the documented default "mean" does not exist. *)
Theorem C89_default_refuted : exists rf af, rf = GNothing /\ af = GNothing /\ ~ exists r, make_aggregated rf af = Some r /\ a_recorder_func r = FMean.
Proof. exists GNothing, GNothing. split; [reflexivity|]. split; [reflexivity|]. intros [r [H _]]. discriminate H. Qed.
Print Assumptions C89_default_refuted.

(** C89 (refuted part): "median" and the other names of Aggregator are accepted and then fail for all members. *)
Theorem C89_median_refuted : exists f agg_func r, named f /\ make_aggregated (GName f) agg_func = Some r /\
  forall n members, (0 < n)%nat -> aggregated_values r n members = None.
Proof.
  exists FMedian, GNothing, (Aggregated FMedian None). split; [exact I|]. split; [reflexivity|]. intros [|n] members H; [lia|]. destruct members; reflexivity.
Qed.
Print Assumptions C89_median_refuted.

(** C89 (refuted part): where all members are NaN, "max" reports minus infinity. *)
Theorem C89_all_nan_refuted : exists r members, make_aggregated (GName FMax) GNothing = Some r /\ members <> [] /\
  (forall vs, In vs members -> vs = [None]) /\ aggregated_values r 1 members = Some [Some NInf].
Proof.
  exists (Aggregated FMax None), [[None]; [None]]. split; [reflexivity|]. split; [discriminate|]. split; [|reflexivity]. intros vs [<-|[<-|[]]]; reflexivity.
Qed.
Print Assumptions C89_all_nan_refuted.

Definition ex_rows : list (list Q) := [[1; 5]; [3; 0]; [2; 1]].
Example C89_example : option_map (option_map Qred) (series_value FMean FMean false 2 (map (map Some) ex_rows)) = Some (Some 2) /\
  option_map (option_map Qred) (series_value FMedian FSum false 2 (map (map Some) ex_rows)) = Some (Some 3) /\
  option_map (option_map Qred) (series_value FCountNonzero FMin false 2 (map (map Some) ex_rows)) = Some (Some 2) /\
  option_map (option_map Qred) (aggregate_1d FMean true [Some 1; None; Some 3]) = Some (Some 2).
Proof. split; [reflexivity|]. split; [reflexivity|]. split; reflexivity. Qed.
Example C89_example_aggregated : exists r, make_aggregated (GName FSum) (GName FMean) = Some r /\
  aggregated_values r 2 [[Some 1; Some 2]; [Some 3; Some 4]] = Some [Some (Fin 4); Some (Fin 6)].
Proof. eexists. split; reflexivity. Qed.
